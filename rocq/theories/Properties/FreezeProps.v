(** C96: modes are bounded and freeze out. *)
From Coq Require Import Reals List String Lra Lia.
From Coquelicot Require Import Coquelicot.
From Verif Require Import Base Model.Potentials Model.Equations Model.Background Model.Perturbations Model.Oscode
  Spec.BackgroundSpec Spec.PerturbationSpec Proofs.BackgroundT Proofs.BackgroundN Proofs.BackgroundEx Proofs.PertT Proofs.Freeze
  Properties.DynProps Properties.PertProps.
Import ListNotations.
Open Scope R_scope.

Lemma sqrt_scale E c : 0 <= E -> 0 < c -> sqrt E * / c = sqrt (E / c^2).
Proof.
  intros HE Hc. unfold Rdiv. replace (/ c^2) with ((/ c)^2) by (field; lra).
  rewrite sqrt_mult; [|exact HE|apply pow2_ge_0].
  rewrite sqrt_pow2; [reflexivity|]. left. apply Rinv_0_lt_compat, Hc.
Qed.
Lemma speed2_pos u x : 0 <= speed2 u x.
Proof. unfold speed2. pose proof (pow2_ge_0 (Derive (fun s => fst (u s)) x)). pose proof (pow2_ge_0 (Derive (fun s => snd (u s)) x)). lra. Qed.
Lemma energy_pos A kap u x : 0 <= kap -> 0 <= energy A kap u x.
Proof.
  intros KP. unfold energy. apply Rplus_le_le_0_compat; apply Rmult_le_pos; first [apply pow2_ge_0|apply speed2_pos|exact KP].
Qed.

(** ** cosmic time *)
Section Time.
Variables (K : R) (U : potfun) (te : bool) (y : R -> list R) (a b : R).
Hypothesis B : T_background K U te y a b.
Notation Nf := (T_N te y). Notation H := (T_Hub K U te y). Notation sa := (fun t => exp (T_N te y t)).

Lemma T_freeze gam om kap u t1 t2 e :
  (forall t, a < t < b -> H t <= 2 * gam t) -> (forall t, a < t < b -> om t = kap / (sa t)^2) ->
  0 <= kap -> complex_mode gam om u a b -> a < t1 -> t1 <= t2 -> t2 < b ->
  energy sa kap u t2 <= energy sa kap u t1 /\
  (te = true -> Cmod (u t2 - u t1)%C <= sqrt (energy sa kap u t1) * (T_eta te y t2 - T_eta te y t1)) /\
  (e < 1 -> slowly_falling_T e H t1 t2 ->
   Cmod (u t2 - u t1)%C <= sqrt (speed2 u t1 / (H t1)^2 + kap * (Cmod (u t1))^2 / (sa t1 * H t1)^2) / (1 - e)).
Proof.
  intros GL OM KP M H1 H12 H2.
  assert (AP : forall x, a < x < b -> 0 < sa x) by (intros; apply exp_pos).
  assert (AD : forall x, a < x < b -> is_derive (fun t => exp (T_N te y t)) x (sa x * H x)).
  { intros x Hx. destruct (T_comps K U te y a b B x Hx) as (_ & _ & DN & _).
    evar_last; [auto_derive; [repeat split; exd|reflexivity]|]. undd. toR. ring. }
  pose proof (energy_decreases (fun t => exp (T_N te y t)) H gam om kap a b AP AD GL OM u M) as EDec.
  pose proof (mode_change (fun t => exp (T_N te y t)) H gam om kap a b AP AD GL OM u M) as MC.
  split; [apply EDec; assumption|]. split.
  - intros Hte. apply (MC (T_eta te y) (fun s => exp (- Nf s)) t1 t2 H1 H12 H2 KP). intros s Hs.
    destruct (T_comps K U te y a b B s ltac:(lra)) as (_ & _ & _ & DE). split; [apply DE, Hte|]. rewrite exp_Ropp. lra.
  - intros E1 SF.
    assert (P1 : 0 < H t1) by (apply (T_pos K U te y a b B t1); lra).
    assert (P2 : 0 < H t2) by (apply (T_pos K U te y a b B t2); lra).
    apply Rle_trans with (sqrt (energy sa kap u t1) * ((- / (sa t2 * H t2)) / (1 - e) - (- / (sa t1 * H t1)) / (1 - e))).
    + apply (MC (fun s => (- / (sa s * H s)) / (1 - e)) (fun s => / (sa s * H s) * (H s + T_dH K U te y s / H s) / (1 - e)) t1 t2 H1 H12 H2 KP).
      intros s Hs. assert (Hs' : a < s < b) by lra. destruct (T_comps K U te y a b B s Hs') as (_ & _ & DN & _).
      pose proof (T_H_derive K U te y a b B s Hs') as DH. destruct (T_pos K U te y a b B s Hs') as [HP _].
      pose proof (SF s Hs) as SFs. rewrite (is_derive_unique _ _ _ DH) in SFs.
      assert (PA : 0 < exp (Nf s)) by apply exp_pos. split.
      * set (Hb := T_Hub K U te y) in *. set (N := T_N te y) in *.
        evar_last; [auto_derive; [repeat split; try exd; try lra|reflexivity]|].
        { apply Rgt_not_eq, Rmult_lt_0_compat; assumption. }
        undd. toR. field. repeat split; lra.
      * apply (Rmult_le_reg_r (1 - e)); [lra|]. set (N := exp (Nf s)) in *. set (Hb := H s) in *. set (dH := T_dH K U te y s) in *.
        replace (/ (N * Hb) * (Hb + dH / Hb) / (1 - e) * (1 - e)) with (/ N * (1 - (- dH / Hb^2))) by (field; repeat split; lra).
        apply Rmult_le_compat_l; [left; apply Rinv_0_lt_compat, PA|lra].
    + assert (PA1 : 0 < exp (Nf t1)) by apply exp_pos. assert (PA2 : 0 < exp (Nf t2)) by apply exp_pos.
      assert (PP1 : 0 < exp (Nf t1) * H t1) by (apply Rmult_lt_0_compat; assumption).
      assert (PP2 : 0 < exp (Nf t2) * H t2) by (apply Rmult_lt_0_compat; assumption).
      replace (speed2 u t1 / H t1 ^ 2 + kap * Cmod (u t1) ^ 2 / (exp (Nf t1) * H t1) ^ 2) with (energy sa kap u t1 / (exp (Nf t1) * H t1)^2)
        by (unfold energy; field; repeat split; lra).
      rewrite <- sqrt_scale by (try apply energy_pos; assumption). unfold Rdiv. rewrite (Rmult_assoc (sqrt _)).
      apply Rmult_le_compat_l; [apply sqrt_pos|]. assert (0 < / (1 - e)) by (apply Rinv_0_lt_compat; lra).
      pose proof (Rinv_0_lt_compat _ PP2) as X2. nra.
Qed.

(** tensor modes, any curvature: on every background and for every wavenumber with a non-negative
    frequency, between any two instants (1) the energy a^2|h'|^2 + kappa|h|^2 does not grow, so the mode stays
    bounded; (2) the mode moves by at most sqrt(energy) times the elapsed conformal time; (3) while the
    universe inflates with -H'/H^2 <= e < 1 the total later change is at most
    sqrt(|dh/dN|^2 + kappa |h|^2/(aH)^2) / (1-e), all taken at the earlier instant. *)
Theorem C96_tensor_time : forall k (u : R -> C) t1 t2 e,
  let kap := k^2 + k * K * (K + 1) + 2 * K in
  0 <= kap ->
  complex_mode (fun t => Tt_damping (T_sample K U te y t)) (fun t => Tt_frequency2 K k (T_sample K U te y t)) u a b ->
  a < t1 -> t1 <= t2 -> t2 < b ->
  let E := fun t => (sa t)^2 * speed2 u t + kap * (Cmod (u t))^2 in
  E t2 <= E t1 /\
  (te = true -> Cmod (u t2 - u t1)%C <= sqrt (E t1) * (T_eta te y t2 - T_eta te y t1)) /\
  (e < 1 -> slowly_falling_T e H t1 t2 ->
   Cmod (u t2 - u t1)%C <= sqrt (speed2 u t1 / (H t1)^2 + kap * (Cmod (u t1))^2 / (sa t1 * H t1)^2) / (1 - e)).
Proof.
  intros k u t1 t2 e kap KP M H1 H12 H2. apply (T_freeze _ _ kap u t1 t2 e) with (3 := KP) (4 := M); try assumption.
  - intros t Ht. destruct (T_pos K U te y a b B t Ht) as [HP _]. unfold Tt_damping, T_sample; cbn [s_H]. lra.
  - intros t Ht. unfold Tt_frequency2, T_sample; cbn [s_N]. rewrite exp_m2. reflexivity.
Qed.
End Time.

(** scalar modes in flat space, as long as |z| = |a phi'/H| does not shrink *)
Theorem C96_scalar_time : forall k U te y a b (u : R -> C) t1 t2 e,
  T_background 0 U te y a b -> k <> 0 ->
  (forall t, a < t < b -> T_dphi te y t <> 0 /\ 0 <= zvar 0 U te y t * Derive (zvar 0 U te y) t) ->
  complex_mode (fun t => Ts_damping 0 k U (T_sample 0 U te y t)) (fun t => Ts_frequency2 0 k U (T_sample 0 U te y t)) u a b ->
  a < t1 -> t1 <= t2 -> t2 < b ->
  let sa := fun t => exp (T_N te y t) in let H := T_Hub 0 U te y in
  let E := fun t => (sa t)^2 * speed2 u t + k^2 * (Cmod (u t))^2 in
  E t2 <= E t1 /\
  (te = true -> Cmod (u t2 - u t1)%C <= sqrt (E t1) * (T_eta te y t2 - T_eta te y t1)) /\
  (e < 1 -> slowly_falling_T e H t1 t2 ->
   Cmod (u t2 - u t1)%C <= sqrt (speed2 u t1 / (H t1)^2 + k^2 * (Cmod (u t1))^2 / (sa t1 * H t1)^2) / (1 - e)).
Proof.
  intros k U te y a b u t1 t2 e B K0 Z M H1 H12 H2. cbv zeta.
  apply (T_freeze 0 U te y a b B _ _ (k^2) u t1 t2 e) with (3 := pow2_ge_0 k) (4 := M); try assumption.
  - intros t Ht. destruct (Z t Ht) as [Np ZP]. destruct (C53_flat_scalar k U te y a b t B K0 Ht Np) as (dz & DZ & E1 & _).
    rewrite (is_derive_unique _ _ _ DZ) in ZP. rewrite E1. destruct (T_pos 0 U te y a b B t Ht) as [HP _].
    assert (NZ : zvar 0 U te y t <> 0).
    { unfold zvar. apply Rmult_integral_contrapositive_currified; [apply Rmult_integral_contrapositive_currified; [apply Rgt_not_eq, exp_pos|exact Np]|apply Rinv_neq_0_compat; lra]. }
    assert (Q : 0 <= dz / zvar 0 U te y t); [|lra].
    replace (dz / zvar 0 U te y t) with (zvar 0 U te y t * dz * / (zvar 0 U te y t)^2) by (field; exact NZ).
    apply Rmult_le_pos; [exact ZP|]. left. apply Rinv_0_lt_compat. rewrite <- Rsqr_pow2. apply Rlt_0_sqr, NZ.
  - intros t Ht. destruct (Z t Ht) as [Np ZP]. destruct (C53_flat_scalar k U te y a b t B K0 Ht Np) as (dz & DZ & _ & E2). exact E2.
Qed.

(** ** e-folds *)
Section Efolds.
Variables (K : R) (U : potfun) (tt te : bool) (y : R -> list R) (a b : R).
Hypothesis B : N_background K U tt te y a b.
Notation H := (N_Hub K U tt te y). Notation aH := (fun n => exp n * N_Hub K U tt te y n).

Lemma N_freeze gam om kap u n1 n2 e :
  (forall n, a < n < b -> 1 + N_dH K U tt te y n / H n <= 2 * gam n) -> (forall n, a < n < b -> om n = kap / (aH n)^2) ->
  0 <= kap -> complex_mode gam om u a b -> a < n1 -> n1 <= n2 -> n2 < b ->
  energy aH kap u n2 <= energy aH kap u n1 /\
  (te = true -> Cmod (u n2 - u n1)%C <= sqrt (energy aH kap u n1) * (N_eta tt te y n2 - N_eta tt te y n1)) /\
  (e < 1 -> slowly_falling_N e H n1 n2 ->
   Cmod (u n2 - u n1)%C <= sqrt (speed2 u n1 + kap * (Cmod (u n1))^2 / (aH n1)^2) / (1 - e)).
Proof.
  intros GL OM KP M H1 H12 H2.
  assert (AP : forall x, a < x < b -> 0 < aH x).
  { intros x Hx. apply Rmult_lt_0_compat; [apply exp_pos|]. apply (N_pos K U tt te y a b B x Hx). }
  assert (AD : forall x, a < x < b -> is_derive (fun n => exp n * N_Hub K U tt te y n) x (aH x * (1 + N_dH K U tt te y x / H x))).
  { intros x Hx. pose proof (N_H_derive K U tt te y a b B x Hx) as DH. destruct (N_pos K U tt te y a b B x Hx) as [HP _].
    set (Hb := N_Hub K U tt te y) in *.
    evar_last; [auto_derive; [repeat split; exd|reflexivity]|]. undd. toR. field. lra. }
  pose proof (energy_decreases (fun n => exp n * N_Hub K U tt te y n) _ gam om kap a b AP AD GL OM u M) as EDec.
  pose proof (mode_change (fun n => exp n * N_Hub K U tt te y n) _ gam om kap a b AP AD GL OM u M) as MC.
  split; [apply EDec; assumption|]. split.
  - intros Hte. apply (MC (N_eta tt te y) (fun s => exp (- s) / H s) n1 n2 H1 H12 H2 KP). intros s Hs.
    destruct (N_comps K U tt te y a b B s ltac:(lra)) as (_ & _ & _ & DE). destruct (N_pos K U tt te y a b B s ltac:(lra)) as [HP _].
    split; [apply DE, Hte|]. rewrite exp_Ropp. right. field. split; first [lra|apply Rgt_not_eq, exp_pos].
  - intros E1 SF. pose proof (AP n1 ltac:(lra)) as P1. pose proof (AP n2 ltac:(lra)) as P2. cbv beta in P1, P2.
    apply Rle_trans with (sqrt (energy aH kap u n1) * ((- / (aH n2)) / (1 - e) - (- / (aH n1)) / (1 - e))).
    + apply (MC (fun s => (- / (aH s)) / (1 - e)) (fun s => / (aH s) * (1 + N_dH K U tt te y s / H s) / (1 - e)) n1 n2 H1 H12 H2 KP).
      intros s Hs. assert (Hs' : a < s < b) by lra.
      pose proof (N_H_derive K U tt te y a b B s Hs') as DH. destruct (N_pos K U tt te y a b B s Hs') as [HP _].
      pose proof (SF s Hs) as SFs. rewrite (is_derive_unique _ _ _ DH) in SFs.
      assert (PA : 0 < exp s) by apply exp_pos. split.
      * set (Hb := N_Hub K U tt te y) in *.
        evar_last; [auto_derive; [repeat split; try exd; try lra|reflexivity]|].
        { apply Rgt_not_eq, Rmult_lt_0_compat; assumption. }
        undd. toR. field. repeat split; lra.
      * apply (Rmult_le_reg_r (1 - e)); [lra|]. set (N := exp s) in *. set (Hb := H s) in *. set (dH := N_dH K U tt te y s) in *.
        replace (/ (N * Hb) * (1 + dH / Hb) / (1 - e) * (1 - e)) with (/ (N * Hb) * (1 - (- dH / Hb))) by (field; repeat split; lra).
        apply Rmult_le_compat_l; [left; apply Rinv_0_lt_compat, Rmult_lt_0_compat; assumption|lra].
    + replace (speed2 u n1 + kap * Cmod (u n1) ^ 2 / (exp n1 * H n1) ^ 2) with (energy aH kap u n1 / (exp n1 * H n1)^2)
        by (unfold energy; field; split; intros X; rewrite X in P1; lra).
      rewrite <- sqrt_scale by (try apply energy_pos; assumption). unfold Rdiv. rewrite (Rmult_assoc (sqrt _)).
      apply Rmult_le_compat_l; [apply sqrt_pos|]. assert (0 < / (1 - e)) by (apply Rinv_0_lt_compat; lra).
      pose proof (Rinv_0_lt_compat _ P2) as X2. nra.
Qed.

(** the same statements for modes integrated over e-folds: energy (aH)^2|dh/dN|^2 + kappa|h|^2 *)
Theorem C96_tensor_efolds : forall k (u : R -> C) n1 n2 e,
  let kap := k^2 + k * K * (K + 1) + 2 * K in
  0 <= kap ->
  complex_mode (fun n => Nt_damping K (N_sample K U tt te y n)) (fun n => Nt_frequency2 K k (N_sample K U tt te y n)) u a b ->
  a < n1 -> n1 <= n2 -> n2 < b ->
  let E := fun n => (aH n)^2 * speed2 u n + kap * (Cmod (u n))^2 in
  E n2 <= E n1 /\
  (te = true -> Cmod (u n2 - u n1)%C <= sqrt (E n1) * (N_eta tt te y n2 - N_eta tt te y n1)) /\
  (e < 1 -> slowly_falling_N e H n1 n2 ->
   Cmod (u n2 - u n1)%C <= sqrt (speed2 u n1 + kap * (Cmod (u n1))^2 / (aH n1)^2) / (1 - e)).
Proof.
  intros k u n1 n2 e kap KP M H1 H12 H2. apply (N_freeze _ _ kap u n1 n2 e) with (3 := KP) (4 := M); try assumption.
  - intros n Hn. destruct (N_pos K U tt te y a b B n Hn) as [HP _]. unfold Nt_damping, N_sample, N_dH, N_get_dH; cbn [s_H s_N s_dphidN].
    set (Hb := H n) in *. set (p := N_dphi tt te y n). set (ex := exp (-2 * n)).
    replace (3 - p^2 / 2 + K * ex / Hb^2) with (3 + (- p ^ 2 * Hb / 2 + K * ex / Hb) / Hb) by (field; lra). lra.
  - intros n Hn. destruct (N_pos K U tt te y a b B n Hn) as [HP _]. unfold Nt_frequency2, N_sample; cbn [s_N s_H]. fold kap. rewrite exp_m2. field. split; first [lra|apply Rgt_not_eq, exp_pos].
Qed.
End Efolds.

Theorem C96_scalar_efolds : forall k U tt te y a b (u : R -> C) n1 n2 e,
  N_background 0 U tt te y a b -> k <> 0 ->
  (forall n, a < n < b -> N_dphi tt te y n <> 0 /\ 0 <= zvarN tt te y n * Derive (zvarN tt te y) n) ->
  complex_mode (fun n => Ns_damping 0 k U (N_sample 0 U tt te y n)) (fun n => Ns_frequency2 0 k U (N_sample 0 U tt te y n)) u a b ->
  a < n1 -> n1 <= n2 -> n2 < b ->
  let aH := fun n => exp n * N_Hub 0 U tt te y n in
  let E := fun n => (aH n)^2 * speed2 u n + k^2 * (Cmod (u n))^2 in
  E n2 <= E n1 /\
  (te = true -> Cmod (u n2 - u n1)%C <= sqrt (E n1) * (N_eta tt te y n2 - N_eta tt te y n1)) /\
  (e < 1 -> slowly_falling_N e (N_Hub 0 U tt te y) n1 n2 ->
   Cmod (u n2 - u n1)%C <= sqrt (speed2 u n1 + k^2 * (Cmod (u n1))^2 / (aH n1)^2) / (1 - e)).
Proof.
  intros k U tt te y a b u n1 n2 e B K0 Z M H1 H12 H2. cbv zeta.
  apply (N_freeze 0 U tt te y a b B _ _ (k^2) u n1 n2 e) with (3 := pow2_ge_0 k) (4 := M); try assumption.
  - intros n Hn. destruct (Z n Hn) as [Np ZP]. destruct (N_pos 0 U tt te y a b B n Hn) as [HP _].
    destruct (N_comps 0 U tt te y a b B n Hn) as (_ & DP & _).
    assert (DZ : is_derive (zvarN tt te y) n (exp n * (N_dphi tt te y n + N_d2phi 0 U tt te y n))).
    { unfold zvarN. set (p := N_dphi tt te y) in *. evar_last; [auto_derive; [repeat split; exd|reflexivity]|]. undd. toR. ring. }
    rewrite (is_derive_unique _ _ _ DZ) in ZP. unfold zvarN in ZP.
    rewrite (N_d2phi_eq 0 U tt te y a b B n Hn) in ZP.
    unfold Ns_damping, Ns_damping2, Ns_xi, N_sample; cbn [s_OmK s_dphidN s_phi s_H]. rewrite OmegaK_attr_eq by exact HP.
    unfold N_dH, N_get_dH in *. set (p := N_dphi tt te y n) in *. set (Hb := N_Hub 0 U tt te y n) in *. set (dv := pdV U (N_phi tt te y n)) in *.
    assert (Q : 0 <= 1 - 3 + p^2 / 2 - dv / (Hb^2 * p)).
    { apply (Rmult_le_reg_l (exp n * exp n * (p * p))).
      - apply Rmult_lt_0_compat; [apply Rmult_lt_0_compat; apply exp_pos|]. fold (Rsqr p). apply Rlt_0_sqr, Np.
      - rewrite Rmult_0_r. apply Rle_trans with (1 := ZP). right. field. repeat split; first [assumption|lra]. }
    unfold kappa2.
    match goal with |- ?x <= ?z => replace z with (x + 2 * (1 - 3 + p^2 / 2 - dv / (Hb^2 * p))); [lra|] end.
    replace (k^2 + k * 0 * (0 + 1) - 3 * 0 + 0 * (p ^ 2 / 2)) with (k^2) by ring.
    replace (k^2 + k * 0 * (0 + 1) - 3 * 0) with (k^2) by ring.
    field. repeat split; first [assumption|lra].
  - intros n Hn. destruct (N_pos 0 U tt te y a b B n Hn) as [HP _].
    unfold Ns_frequency2, N_sample; cbn [s_N s_OmK s_H]. rewrite OmegaK_attr_eq by exact HP. unfold kappa2. rewrite exp_2. field.
    split; first [lra|apply Rgt_not_eq, exp_pos].
Qed.

(** the hypotheses are met by an exact mode of the power law a = t^2 (k = 1), for tensors and scalars, with e = 1/2 *)
Definition exmode (t : R) : C := (3 * / t * cos (/ t) - (3 - (/ t)^2) * sin (/ t), 0).
Lemma exmode_osc (gam om : R -> R) : (forall t, 1 < t < 3 -> gam t = 3 / t) -> (forall t, 1 < t < 3 -> om t = 1 / t^4) -> complex_mode gam om exmode 1 3.
Proof.
  intros G O. split.
  - exists (fun t => - (/ t)^2 * ((/ t)^2 * cos (/ t) - / t * sin (/ t))). intros t Ht. rewrite (G t Ht), (O t Ht). unfold exmode; cbn [fst]. split.
    + evar_last; [auto_derive; [repeat split; lra|reflexivity]|]. toR. field. lra.
    + evar_last; [auto_derive; [repeat split; lra|reflexivity]|]. toR. field. lra.
  - exists (fun _ => 0). intros t Ht. unfold exmode; cbn [snd]. split.
    + apply (is_derive_const (V := R_NormedModule) 0 t).
    + evar_last; [apply (is_derive_const (V := R_NormedModule) 0 t)|]. change (@eq R 0 (- (2 * gam t * 0 + om t * 0))). ring.
Qed.
Lemma sin_x_cos s : 0 < s <= 1 -> 0 < sin s - s * cos s.
Proof.
  intros Hs. pose proof PI2_1 as P.
  assert (D : forall x, is_derive (fun s => sin s - s * cos s) x (x * sin x)) by (intros x; evar_last; [auto_derive; [exact I|reflexivity]|toR; ring]).
  assert (M1 : (fun s => sin s - s * cos s) 0 <= (fun s => sin s - s * cos s) (s/2)).
  { apply (mono_le (fun s => sin s - s * cos s) (fun x => x * sin x)); [intros x _; apply D| |lra]. intros x Hx. apply Rmult_le_pos; [lra|]. apply sin_ge_0; lra. }
  assert (M2 : (fun s => sin s - s * cos s) (s/2) < (fun s => sin s - s * cos s) s).
  { apply (mono_lt (fun s => sin s - s * cos s) (fun x => x * sin x)); [intros x _; apply D| |lra]. intros x Hx. apply Rmult_lt_0_compat; [lra|]. apply sin_gt_0; lra. }
  cbv beta in M1, M2. rewrite sin_0 in M1. lra.
Qed.
Theorem C96_nonvacuous :
  T_background 0 (Vexp 10) true y_flat 1 3 /\ 0 <= 1^2 + 1 * 0 * (0 + 1) + 2 * 0 /\
  complex_mode (fun t => Tt_damping (T_sample 0 (Vexp 10) true y_flat t)) (fun t => Tt_frequency2 0 1 (T_sample 0 (Vexp 10) true y_flat t)) exmode 1 3 /\
  (forall t, 1 < t < 3 -> T_dphi true y_flat t <> 0 /\ 0 <= zvar 0 (Vexp 10) true y_flat t * Derive (zvar 0 (Vexp 10) true y_flat) t) /\
  complex_mode (fun t => Ts_damping 0 1 (Vexp 10) (T_sample 0 (Vexp 10) true y_flat t)) (fun t => Ts_frequency2 0 1 (Vexp 10) (T_sample 0 (Vexp 10) true y_flat t)) exmode 1 3 /\
  slowly_falling_T (1/2) (T_Hub 0 (Vexp 10) true y_flat) (3/2) 2 /\ exmode 2 <> exmode (3/2).
Proof.
  assert (DP : forall t, 1 < t < 3 -> T_dphi true y_flat t <> 0) by (intros t Ht; rewrite flat_dphi; apply Rgt_not_eq, Rdiv_lt_0_compat; lra).
  assert (ZD : forall t, 1 < t < 3 -> is_derive (zvar 0 (Vexp 10) true y_flat) t (2 * t) /\ zvar 0 (Vexp 10) true y_flat t = t^2).
  { assert (Z : forall t, 0 < t -> zvar 0 (Vexp 10) true y_flat t = t^2).
    { intros t Ht. unfold zvar. rewrite flat_a, flat_dphi, flat_Hub by exact Ht. field. lra. }
    intros t Ht. split; [|apply Z; lra]. apply (is_derive_ext_loc (fun s => s^2)).
    - apply (locally_interval _ t 1 3); [exact (proj1 Ht)|exact (proj2 Ht)|]. intros s S1 S2. symmetry. apply Z. cbn in S1, S2. lra.
    - evar_last; [auto_derive; [exact I|reflexivity]|]. toR. ring. }
  split; [exact flat_background|]. split; [lra|]. split; [|split; [|split; [|split]]].
  - apply exmode_osc; intros t Ht.
    + unfold Tt_damping, T_sample; cbn [s_H]. rewrite flat_Hub by lra. field. lra.
    + unfold Tt_frequency2, T_sample; cbn [s_N]. rewrite exp_m2, flat_a by lra. field. lra.
  - intros t Ht. split; [apply DP, Ht|]. destruct (ZD t Ht) as [Z1 Z2]. rewrite (is_derive_unique _ _ _ Z1), Z2. apply Rmult_le_pos; [apply pow2_ge_0|lra].
  - apply exmode_osc; intros t Ht; destruct (C53_flat_scalar 1 (Vexp 10) true y_flat 1 3 t flat_background ltac:(lra) Ht (DP t Ht)) as (dz & Z0 & E1 & E2).
    + destruct (ZD t Ht) as [Z1 Z2]. assert (dz = 2 * t) as -> by (rewrite <- (is_derive_unique _ _ _ Z0); exact (is_derive_unique _ _ _ Z1)).
      rewrite Z2, flat_Hub in E1 by lra. apply (Rmult_eq_reg_l 2); [|lra]. rewrite E1. field. lra.
    + rewrite E2, flat_a by lra. field. lra.
  - intros t Ht. assert (D : is_derive (T_Hub 0 (Vexp 10) true y_flat) t (- (2 / t^2))).
    { apply (is_derive_ext_loc (fun s => 2 / s)).
      - apply (locally_interval _ t 1 3); [cbn; lra|cbn; lra|]. intros s S1 S2. symmetry. apply flat_Hub. cbn in S1, S2. lra.
      - evar_last; [auto_derive; [lra|reflexivity]|]. toR. field. lra. }
    rewrite (is_derive_unique _ _ _ D), flat_Hub by lra. right. field. lra.
  - intros X. apply (f_equal fst) in X. unfold exmode in X; cbn [fst] in X.
    assert (M : (fun s => - (3 * s * cos s - (3 - s^2) * sin s)) (/ 2) < (fun s => - (3 * s * cos s - (3 - s^2) * sin s)) (/ (3/2))); [|cbv beta in M; lra].
    apply (mono_lt (fun s => - (3 * s * cos s - (3 - s^2) * sin s)) (fun s => s * (sin s - s * cos s))); [| |lra].
    + intros s _. evar_last; [auto_derive; [exact I|reflexivity]|]. toR. ring.
    + intros s Hs. apply Rmult_lt_0_compat; [lra|]. apply sin_x_cos. lra.
Qed.

(** ** at the end of the integration window *)
Lemma fac_bound k fac q v w e : 0 < k -> 0 < fac -> 0 < q -> k * fac <= q -> e < 1 -> 0 <= v ->
  sqrt (v + k^2 * w^2 / q^2) / (1 - e) <= sqrt (v + (w / fac)^2) / (1 - e).
Proof.
  intros Hk Hf Hq L E V. unfold Rdiv at 1 3. apply Rmult_le_compat_r; [left; apply Rinv_0_lt_compat; lra|].
  apply sqrt_le_1_alt. apply Rplus_le_compat_l.
  replace (k^2 * w^2 / q^2) with (w^2 * (k / q)^2) by (field; lra). replace ((w / fac)^2) with (w^2 * (/ fac)^2) by (field; lra).
  apply Rmult_le_compat_l; [apply pow2_ge_0|]. apply pow_incr. split; [left; apply Rdiv_lt_0_compat; assumption|].
  apply (Rmult_le_reg_r (fac * q)); [apply Rmult_lt_0_compat; assumption|]. replace (k / q * (fac * q)) with (k * fac) by (field; lra).
  replace (/ fac * (fac * q)) with q by (field; lra). exact L.
Qed.
(** flat space, cosmic time: if the mode is outside the horizon by the factor [fac] (fac_end of the window) at t1,
    then from there on, while -H'/H^2 <= e < 1, it changes by at most sqrt(|dh/dN|^2 + (|h|/fac)^2)/(1-e) *)
Theorem C96_outside_time : forall (tensor : bool) k fac U te y a b (u : R -> C) t1 t2 e,
  T_background 0 U te y a b -> 0 < k -> 0 < fac ->
  (tensor = false -> forall t, a < t < b -> T_dphi te y t <> 0 /\ 0 <= zvar 0 U te y t * Derive (zvar 0 U te y) t) ->
  complex_mode (fun t => if tensor then Tt_damping (T_sample 0 U te y t) else Ts_damping 0 k U (T_sample 0 U te y t))
               (fun t => if tensor then Tt_frequency2 0 k (T_sample 0 U te y t) else Ts_frequency2 0 k U (T_sample 0 U te y t)) u a b ->
  a < t1 -> t1 <= t2 -> t2 < b -> k * fac <= exp (T_N te y t1) * T_Hub 0 U te y t1 ->
  e < 1 -> slowly_falling_T e (T_Hub 0 U te y) t1 t2 ->
  Cmod (u t2 - u t1)%C <= sqrt (speed2 u t1 / (T_Hub 0 U te y t1)^2 + (Cmod (u t1) / fac)^2) / (1 - e).
Proof.
  intros tensor k fac U te y a b u t1 t2 e B Hk Hf Z M H1 H12 H2 L E SF.
  destruct (T_pos 0 U te y a b B t1 ltac:(lra)) as [HP _].
  apply Rle_trans with (sqrt (speed2 u t1 / (T_Hub 0 U te y t1)^2 + k^2 * (Cmod (u t1))^2 / (exp (T_N te y t1) * T_Hub 0 U te y t1)^2) / (1 - e)).
  - destruct tensor.
    + pose proof (C96_tensor_time 0 U te y a b B k u t1 t2 e) as T. cbv zeta in T. replace (k^2 + k * 0 * (0 + 1) + 2 * 0) with (k^2) in T by ring.
      apply (T (pow2_ge_0 k) M H1 H12 H2); assumption.
    + apply (C96_scalar_time k U te y a b u t1 t2 e B ltac:(lra) (Z eq_refl) M H1 H12 H2); assumption.
  - apply fac_bound; try assumption; [apply Rmult_lt_0_compat; [apply exp_pos|exact HP]|].
    apply Rmult_le_pos; [apply speed2_pos|]. left. apply Rinv_0_lt_compat, pow_lt, HP.
Qed.
Theorem C96_outside_efolds : forall (tensor : bool) k fac U tt te y a b (u : R -> C) n1 n2 e,
  N_background 0 U tt te y a b -> 0 < k -> 0 < fac ->
  (tensor = false -> forall n, a < n < b -> N_dphi tt te y n <> 0 /\ 0 <= zvarN tt te y n * Derive (zvarN tt te y) n) ->
  complex_mode (fun n => if tensor then Nt_damping 0 (N_sample 0 U tt te y n) else Ns_damping 0 k U (N_sample 0 U tt te y n))
               (fun n => if tensor then Nt_frequency2 0 k (N_sample 0 U tt te y n) else Ns_frequency2 0 k U (N_sample 0 U tt te y n)) u a b ->
  a < n1 -> n1 <= n2 -> n2 < b -> k * fac <= exp n1 * N_Hub 0 U tt te y n1 ->
  e < 1 -> slowly_falling_N e (N_Hub 0 U tt te y) n1 n2 ->
  Cmod (u n2 - u n1)%C <= sqrt (speed2 u n1 + (Cmod (u n1) / fac)^2) / (1 - e).
Proof.
  intros tensor k fac U tt te y a b u n1 n2 e B Hk Hf Z M H1 H12 H2 L E SF.
  destruct (N_pos 0 U tt te y a b B n1 ltac:(lra)) as [HP _].
  apply Rle_trans with (sqrt (speed2 u n1 + k^2 * (Cmod (u n1))^2 / (exp n1 * N_Hub 0 U tt te y n1)^2) / (1 - e)).
  - destruct tensor.
    + pose proof (C96_tensor_efolds 0 U tt te y a b B k u n1 n2 e) as T. cbv zeta in T. replace (k^2 + k * 0 * (0 + 1) + 2 * 0) with (k^2) in T by ring.
      apply (T (pow2_ge_0 k) M H1 H12 H2); assumption.
    + apply (C96_scalar_efolds k U tt te y a b u n1 n2 e B ltac:(lra) (Z eq_refl) M H1 H12 H2); assumption.
  - apply fac_bound; try assumption; [apply Rmult_lt_0_compat; [apply exp_pos|exact HP]|apply speed2_pos].
Qed.
