(** Vacuum initial conditions and combination of solutions. *)
From Coq Require Import Reals List String Lra Lia.
From Coquelicot Require Import Coquelicot.
From Verif Require Import Base Model.Potentials Model.Equations Model.Background Model.Perturbations
  Spec.BackgroundSpec Spec.PerturbationSpec Proofs.PhiEnd Proofs.BackgroundT Proofs.BackgroundN Proofs.BackgroundTN Proofs.PertT.
Import ListNotations.
Open Scope R_scope.

(** *** Wronskians *)
Ltac uncx := unfold wronskian, cderiv, Cconj, Cdiv, Cminus; unfold Cplus, Copp, Cinv, Cmult, RtoC, Ci; cbn [fst snd].
Lemma wronskian_cderiv w a d r : a <> 0 -> wronskian (RtoC r, cderiv w a d r) = (0, - 2 * w / a * r^2).
Proof.
  intros Ha. uncx.
  f_equal; field; assumption.
Qed.
Lemma wronskian_rst w a r : a <> 0 -> wronskian (RtoC r, (- Ci * RtoC w / RtoC a * RtoC r)%C) = (0, - 2 * w / a * r^2).
Proof.
  intros Ha. uncx.
  f_equal; field; assumption.
Qed.
Lemma vac_norm c w a z : 0 < w -> a <> 0 -> z <> 0 -> - 2 * w / a * (c / sqrt (2 * w) / z)^2 = - (c^2 / (a * z^2)).
Proof.
  intros Hw Ha Hz. assert (S : 0 < sqrt (2 * w)) by (apply sqrt_lt_R0; lra).
  replace ((c / sqrt (2 * w) / z)^2) with (c^2 / (sqrt (2 * w) * sqrt (2 * w)) / z^2) by (field; split; first [exact Hz|lra]).
  rewrite sqrt_sqrt by lra. field. repeat split; first [assumption|lra].
Qed.

(** *** e-folds against cosmic time *)
Lemma cderiv_scale w a H dT dN r : a <> 0 -> H <> 0 -> dT = H * dN ->
  cderiv w a dT r = (RtoC H * cderiv w (a * H) dN r)%C.
Proof.
  intros Ha HH ->. uncx.
  f_equal; field; repeat split; assumption.
Qed.
Lemma rst_scale w a H r : a <> 0 -> H <> 0 ->
  (- Ci * RtoC w / RtoC a * RtoC r = RtoC H * (- Ci * RtoC w / RtoC (a * H) * RtoC r))%C.
Proof.
  intros Ha HH. uncx.
  f_equal; field; repeat split; assumption.
Qed.
Lemma sqrt_sq H : 0 < H -> sqrt (H^2) = H.
Proof. intros. apply sqrt_pow2. lra. Qed.

Section Same.
Variables (K k : R) (U : potfun) (s s' : sample).
Hypothesis S : same_state K s s'.
Hypothesis HP : 0 < s_H s.

Lemma same_z : exp (s_N s') * s_dphidN s' = exp (s_N s) * s_dphidt s / s_H s.
Proof. destruct S as (-> & _ & _ & -> & _). field. lra. Qed.
Lemma same_dz : s_dphidt s <> 0 ->
  s_H s + T_get_d2phi (s_H s^2) (s_dphidt s) (pdV U (s_phi s)) / s_dphidt s - T_get_dH_H (s_N s) (s_H s^2) (s_dphidt s) K
  = s_H s * (N_get_d2phi (s_H s'^2) (N_get_dH_H (s_N s') (s_H s'^2) (s_dphidN s') K) (s_dphidN s') (pdV U (s_phi s')) / s_dphidN s' + 1).
Proof.
  intros Np. destruct S as (E1 & E2 & E3 & E4 & _). rewrite E1, E2, E3, E4.
  unfold T_get_d2phi, T_get_dH_H, N_get_d2phi, N_get_dH_H. cbv zeta. rewrite sqrt_sq by assumption. field. repeat split; first [assumption|lra].
Qed.
Lemma same_vac_k : s_dphidt s <> 0 ->
  fst (Ts_vac_k K k U s) = fst (Ns_vac_k K k U s') /\ snd (Ts_vac_k K k U s) = (RtoC (s_H s) * snd (Ns_vac_k K k U s'))%C.
Proof.
  intros Np. pose proof same_z as Z. pose proof (same_dz Np) as D. unfold Ts_vac_k, Ns_vac_k. cbv zeta. cbn [fst snd].
  rewrite Z. split; [reflexivity|]. destruct S as (E1 & E2 & _). rewrite E1, E2 in *.
  apply cderiv_scale; [apply Rgt_not_eq, exp_pos|lra|exact D].
Qed.
Lemma same_vac_RST :
  fst (Ts_vac_RST k s) = fst (Ns_vac_RST k s') /\ snd (Ts_vac_RST k s) = (RtoC (s_H s) * snd (Ns_vac_RST k s'))%C.
Proof.
  pose proof same_z as Z. unfold Ts_vac_RST, Ns_vac_RST. cbv zeta. cbn [fst snd].
  rewrite Z. split; [reflexivity|]. destruct S as (E1 & E2 & _). rewrite E1, E2.
  apply rst_scale; [apply Rgt_not_eq, exp_pos|lra].
Qed.
(** radicands of the two HD frequencies *)
Definition T_rad : R := k^2 / (exp (s_N s))^2 - s_H s * (s_H s + T_get_d2phi (s_H s^2) (s_dphidt s) (pdV U (s_phi s)) / s_dphidt s - T_get_dH_H (s_N s) (s_H s^2) (s_dphidt s) K)
  - ((s_H s)^2 + 2 * s_H s * T_get_d2phi (s_H s^2) (s_dphidt s) (pdV U (s_phi s)) / s_dphidt s
     + T_get_d3phi (s_H s) (T_get_dH (s_N s) (s_H s) (s_dphidt s) K) (T_get_d2H (s_N s) (s_H s) (T_get_dH (s_N s) (s_H s) (s_dphidt s) K) (s_dphidt s) (T_get_d2phi (s_H s^2) (s_dphidt s) (pdV U (s_phi s))) K)
         (s_dphidt s) (T_get_d2phi (s_H s^2) (s_dphidt s) (pdV U (s_phi s))) (pdV U (s_phi s)) (pd2V U (s_phi s)) / s_dphidt s
     - T_get_dH (s_N s) (s_H s) (s_dphidt s) K
     - T_get_d2H (s_N s) (s_H s) (T_get_dH (s_N s) (s_H s) (s_dphidt s) K) (s_dphidt s) (T_get_d2phi (s_H s^2) (s_dphidt s) (pdV U (s_phi s))) K / s_H s
     - 2 * T_get_d2phi (s_H s^2) (s_dphidt s) (pdV U (s_phi s)) * T_get_dH_H (s_N s) (s_H s^2) (s_dphidt s) K / s_dphidt s
     + 2 * T_get_dH_H (s_N s) (s_H s^2) (s_dphidt s) K^2).
Lemma T_rad_eq : Ts_HD_wk K k U s = exp (s_N s) * sqrt T_rad.
Proof. reflexivity. Qed.
Definition N_rad : R :=
  let a := exp (s_N s') in
   let H := s_H s' in let p := s_dphidN s' in
   let dV := pdV U (s_phi s') in let d2V := pd2V U (s_phi s') in
   let dH := N_get_dH (s_N s') H p K in
   let dH_H := N_get_dH_H (s_N s') (H^2) p K in
   let d2phi := N_get_d2phi (H^2) dH_H p dV in
   let d2H := N_get_d2H (s_N s') H dH p d2phi K in
   let d3phi := N_get_d3phi H dH d2H p d2phi dV d2V in
   let dz_z := d2phi / p + 1 in
   let d2z_z := d3phi / p + 2 * d2phi / p + 1 in
   (k^2 / (a * H)^2 - (1 + dH / H) * dz_z - d2z_z)%R.
Lemma N_rad_eq : Ns_HD_wk K k U s' = exp (s_N s') * s_H s' * sqrt N_rad.
Proof. reflexivity. Qed.
Lemma same_rad : s_dphidt s <> 0 -> T_rad = (s_H s)^2 * N_rad - 3 * K / (exp (s_N s))^2.
Proof.
  intros Np. destruct S as (E1 & E2 & E3 & E4 & _). unfold T_rad, N_rad. cbv zeta. rewrite E1, E2, E3, E4.
  unfold T_get_d2phi, T_get_dH_H, N_get_d2phi, N_get_dH_H, T_get_d3phi, T_get_dH, T_get_d2H, N_get_d3phi, N_get_dH, N_get_d2H. cbv zeta.
  rewrite sqrt_sq, exp_m2 by assumption. assert (PA : exp (s_N s) <> 0) by (apply Rgt_not_eq, exp_pos).
  field. repeat split; first [assumption|lra].
Qed.
Lemma same_HD_flat : K = 0 -> s_dphidt s <> 0 -> Ts_HD_wk K k U s = Ns_HD_wk K k U s'.
Proof.
  intros K0 Np. rewrite T_rad_eq, N_rad_eq, (same_rad Np), K0. destruct S as (E1 & E2 & _). rewrite E1, E2.
  replace (s_H s ^ 2 * N_rad - 3 * 0 / exp (s_N s) ^ 2) with (s_H s ^ 2 * N_rad).
  2:{ field. apply Rgt_not_eq, exp_pos. }
  rewrite sqrt_mult_alt by (apply pow2_ge_0). rewrite sqrt_sq by assumption. ring.
Qed.
Lemma same_vac_HD : K = 0 -> s_dphidt s <> 0 ->
  fst (Ts_vac_HD K k U s) = fst (Ns_vac_HD K k U s') /\ snd (Ts_vac_HD K k U s) = (RtoC (s_H s) * snd (Ns_vac_HD K k U s'))%C.
Proof.
  intros K0 Np. pose proof same_z as Z. pose proof (same_dz Np) as D. pose proof (same_HD_flat K0 Np) as W.
  unfold Ts_vac_HD, Ns_vac_HD. cbv zeta. cbn [fst snd].
  rewrite Z, W. split; [reflexivity|]. destruct S as (E1 & E2 & _). rewrite E1, E2 in *.
  apply cderiv_scale; [apply Rgt_not_eq, exp_pos|lra|exact D].
Qed.
Lemma same_tvac_k : fst (Tt_vac_k k s) = fst (Nt_vac_k k s') /\ snd (Tt_vac_k k s) = (RtoC (s_H s) * snd (Nt_vac_k k s'))%C.
Proof.
  unfold Tt_vac_k, Nt_vac_k. cbv zeta. cbn [fst snd]. destruct S as (E1 & E2 & _). rewrite E1, E2. split; [reflexivity|].
  apply cderiv_scale; [apply Rgt_not_eq, exp_pos|lra|ring].
Qed.
Lemma same_tvac_RST : fst (Tt_vac_RST k s) = fst (Nt_vac_RST k s') /\ snd (Tt_vac_RST k s) = (RtoC (s_H s) * snd (Nt_vac_RST k s'))%C.
Proof.
  unfold Tt_vac_RST, Nt_vac_RST. cbv zeta. cbn [fst snd]. destruct S as (E1 & E2 & _). rewrite E1, E2. split; [reflexivity|].
  apply rst_scale; [apply Rgt_not_eq, exp_pos|lra].
Qed.
Lemma same_tHD : Tt_HD_wk K k s = Nt_HD_wk K k s'.
Proof.
  unfold Tt_HD_wk, Nt_HD_wk, T_get_dH, N_get_dH. cbv zeta. destruct S as (E1 & E2 & _ & E4 & _). rewrite E1, E2, E4, Rmult_assoc. f_equal.
  assert (PA : exp (s_N s) <> 0) by (apply Rgt_not_eq, exp_pos).
  match goal with |- sqrt ?x = ?h * sqrt ?w => replace x with (h^2 * w) end.
  - rewrite sqrt_mult_alt by apply pow2_ge_0. rewrite sqrt_sq by assumption. reflexivity.
  - field. repeat split; first [assumption|lra].
Qed.
Lemma same_tvac_HD : fst (Tt_vac_HD K k s) = fst (Nt_vac_HD K k s') /\ snd (Tt_vac_HD K k s) = (RtoC (s_H s) * snd (Nt_vac_HD K k s'))%C.
Proof.
  pose proof same_tHD as W. unfold Tt_vac_HD, Nt_vac_HD. cbv zeta. cbn [fst snd]. rewrite W. destruct S as (E1 & E2 & _). rewrite E1, E2. split; [reflexivity|].
  apply cderiv_scale; [apply Rgt_not_eq, exp_pos|lra|ring].
Qed.
End Same.

Lemma pos_sqrt_sq c x : (c * sqrt x > 0)%R -> (c * sqrt x)^2 = c^2 * x.
Proof.
  intros W. assert (PX : 0 <= x).
  { destruct (Rle_lt_dec 0 x) as [L|L]; [exact L|]. rewrite sqrt_neg_0 in W by lra. rewrite Rmult_0_r in W. lra. }
  rewrite Rpow_mult_distr. simpl. rewrite !Rmult_1_r, (sqrt_sqrt x) by exact PX. reflexivity.
Qed.

(** *** the HD frequency is k^2 - z''/z in conformal time (d/deta = a d/dt = a H d/dN) *)
Section HDT.
Variables (K k : R) (U : potfun) (te : bool) (y : R -> list R) (a b : R).
Hypothesis B : T_background K U te y a b.
Notation phi := (T_phi te y). Notation p := (T_dphi te y). Notation Nf := (T_N te y). Notation H := (T_Hub K U te y).
Hypothesis NZ : forall t, a < t < b -> p t <> 0.

Lemma uniq_deriv (f f1 g1 : R -> R) c d : (forall t, c < t < d -> is_derive f t (f1 t)) -> (forall t, c < t < d -> is_derive f t (g1 t)) ->
  forall t, c < t < d -> f1 t = g1 t.
Proof. intros A1 A2 t Ht. transitivity (Derive f t); [symmetry|]; apply is_derive_unique; auto. Qed.
Lemma ext_in2 (f g : R -> R) c d t l : c < t < d -> (forall s, c < s < d -> f s = g s) -> is_derive f t l -> is_derive g t l.
Proof.
  intros Ht E. apply is_derive_ext_loc. apply (locally_interval _ t c d); try apply Ht. intros s A1 A2. apply E. split; assumption.
Qed.

Lemma T_HD_z z1 w t : a < t < b -> (forall s, a < s < b -> is_derive (zvar K U te y) s (z1 s)) ->
  is_derive (fun s => exp (Nf s) * z1 s) t w ->
  (exp (Nf t))^2 * T_rad K k U (T_sample K U te y t) = k^2 - exp (Nf t) * w / zvar K U te y t - 3 * K.
Proof.
  intros Ht D1 D2.
  assert (E1 : forall s, a < s < b -> z1 s = zvar K U te y s * (H s + T_d2phi K U te y s / p s - T_dH K U te y s / H s)).
  { apply (uniq_deriv (zvar K U te y)); [exact D1|]. intros s Hs. apply zvar_derive with (a := a) (b := b); auto. }
  destruct (T_comps K U te y a b B t Ht) as (_ & Dp & DN & _).
  destruct (T_pos K U te y a b B t Ht) as [Hp _]. pose proof (T_H_derive K U te y a b B t Ht) as DH.
  pose proof (T_dH_derive K U te y a b B t Ht) as DdH. pose proof (T_d2phi_derive K U te y a b B t Ht) as Dd2.
  pose proof (zvar_derive K U te y a b B t Ht (NZ t Ht)) as Dz. pose proof (NZ t Ht) as Np.
  assert (D3 : is_derive (fun s => exp (Nf s) * (zvar K U te y s * (H s + T_d2phi K U te y s / p s - T_dH K U te y s / H s))) t w).
  { apply (ext_in2 (fun s => exp (Nf s) * z1 s) _ a b); [exact Ht| |exact D2]. intros s Hs. cbv beta. rewrite E1 by exact Hs. reflexivity. }
  apply is_derive_unique in D3. rewrite <- D3.
  match goal with |- context [Derive ?f t] => assert (DD : exists l, is_derive f t l /\
    l = exp (Nf t) * (H t * (zvar K U te y t * (H t + T_d2phi K U te y t / p t - T_dH K U te y t / H t))
        + zvar K U te y t * (H t + T_d2phi K U te y t / p t - T_dH K U te y t / H t)^2
        + zvar K U te y t * (T_dH K U te y t + T_d3true K U te y t / p t - (T_d2phi K U te y t / p t)^2 - T_d2H K U te y t / H t + (T_dH K U te y t / H t)^2))) end.
  { eexists. split; [auto_derive; [repeat split; try exd; lra|reflexivity]|]. undd. toR. field. split; first [exact Np|lra]. }
  destruct DD as (l & DD & El). rewrite (is_derive_unique _ _ _ DD), El. rewrite (T_d3_error K U te y t).
  assert (PA : exp (Nf t) <> 0) by (apply Rgt_not_eq, exp_pos).
  unfold T_rad, zvar, T_d3phi, T_sample. cbn [s_N s_H s_phi s_dphidt]. unfold T_d2H, T_dH, T_d2phi.
  assert (S2 : T_H2 K U te t (y t) = (H t)^2).
  { unfold T_Hub. simpl. rewrite Rmult_1_r, sqrt_sqrt; [reflexivity|]. destruct B as [_ Q]. destruct (Q t Ht). lra. }
  rewrite S2. unfold T_get_d2phi, T_get_dH_H, T_get_d3phi, T_get_dH, T_get_d2H. cbv zeta.
  rewrite sqrt_sq, exp_m2 by exact Hp.
  field. repeat split; first [assumption|lra].
Qed.
Lemma T_HD_a w t : a < t < b -> is_derive (fun s => exp (Nf s) * (exp (Nf s) * H s)) t w ->
  (Tt_HD_wk K k (T_sample K U te y t) > 0)%R ->
  (Tt_HD_wk K k (T_sample K U te y t))^2 = k^2 - exp (Nf t) * w / exp (Nf t).
Proof.
  intros Ht D W. destruct (T_comps K U te y a b B t Ht) as (_ & Dp & DN & _).
  pose proof (T_H_derive K U te y a b B t Ht) as DH. apply is_derive_unique in D. rewrite <- D.
  assert (PA : 0 < exp (Nf t)) by apply exp_pos.
  match goal with |- context [Derive ?f t] => assert (DD : exists l, is_derive f t l /\ l = (exp (Nf t))^2 * (2 * (H t)^2 + T_dH K U te y t)) end.
  { eexists. split; [auto_derive; [repeat split; try exd; lra|reflexivity]|]. undd. toR. ring. }
  destruct DD as (l & DD & El). rewrite (is_derive_unique _ _ _ DD), El.
  unfold Tt_HD_wk in *. cbv zeta in *. unfold T_sample in *. cbn [s_N s_H s_phi s_dphidt] in *.
  rewrite pos_sqrt_sq by exact W.
  unfold T_dH. field. lra.
Qed.
End HDT.

Section HDN.
Variables (K k : R) (U : potfun) (tt te : bool) (y : R -> list R) (a b : R).
Hypothesis B : N_background K U tt te y a b.
Notation phi := (N_phi tt te y). Notation p := (N_dphi tt te y). Notation H := (N_Hub K U tt te y).
Hypothesis NZ : forall t, a < t < b -> p t <> 0.

Lemma zvarN_derive t : a < t < b -> is_derive (zvarN tt te y) t (exp t * p t + exp t * N_d2phi K U tt te y t).
Proof.
  intros Ht. destruct (N_comps K U tt te y a b B t Ht) as (_ & Dp & _). unfold zvarN.
  evar_last; [auto_derive; [repeat split; try exd|reflexivity]|]. undd. toR. ring.
Qed.
Lemma N_HD_z z1 w t : a < t < b -> (forall s, a < s < b -> is_derive (zvarN tt te y) s (z1 s)) ->
  is_derive (fun s => exp s * H s * z1 s) t w ->
  (exp t * H t)^2 * N_rad K k U (N_sample K U tt te y t) = k^2 - exp t * H t * w / zvarN tt te y t.
Proof.
  intros Ht D1 D2. pose proof (NZ t Ht) as Np.
  assert (E1 : forall s, a < s < b -> z1 s = exp s * p s + exp s * N_d2phi K U tt te y s)
    by (apply (uniq_deriv (zvarN tt te y)); [exact D1|exact zvarN_derive]).
  destruct (N_comps K U tt te y a b B t Ht) as (_ & Dp & _). destruct (N_pos K U tt te y a b B t Ht) as (Hp & _).
  pose proof (N_H_derive K U tt te y a b B t Ht) as DH. pose proof (N_d2phi_derive K U tt te y a b B t Ht) as Dd2.
  assert (D3 : is_derive (fun s => exp s * H s * (exp s * p s + exp s * N_d2phi K U tt te y s)) t w).
  { apply (ext_in2 (fun s => exp s * H s * z1 s) _ a b); [exact Ht| |exact D2]. intros s Hs. cbv beta. rewrite E1 by exact Hs. reflexivity. }
  apply is_derive_unique in D3. rewrite <- D3.
  match goal with |- context [Derive ?f t] => assert (DD : exists l, is_derive f t l /\
    l = (exp t)^2 * ((H t + N_dH K U tt te y t) * (p t + N_d2phi K U tt te y t) + H t * (p t + 2 * N_d2phi K U tt te y t + N_d3phi K U tt te y t))) end.
  { eexists. split; [auto_derive; [repeat split; try exd|reflexivity]|]. undd. toR. ring. }
  destruct DD as (l & DD & El). rewrite (is_derive_unique _ _ _ DD), El.
  assert (PA : exp t <> 0) by (apply Rgt_not_eq, exp_pos).
  assert (S2 : N_H2 K U tt te t (y t) = (H t)^2).
  { unfold N_Hub. simpl. rewrite Rmult_1_r, sqrt_sqrt; [reflexivity|]. destruct B as [_ Q]. destruct (Q t Ht). lra. }
  unfold N_rad, zvarN, N_sample. cbn [s_N s_H s_phi s_dphidN]. cbv zeta.
  unfold N_d3phi, N_d2H, N_dH, N_d2phi. cbv zeta. rewrite S2.
  set (d2 := N_get_d2phi (H t ^ 2) (N_get_dH_H t (H t ^ 2) (p t) K) (p t) (pdV U (phi t))).
  set (d1 := N_get_dH t (H t) (p t) K). set (d2H := N_get_d2H t (H t) d1 (p t) d2 K).
  set (d3 := N_get_d3phi (H t) d1 d2H (p t) d2 (pdV U (phi t)) (pd2V U (phi t))).
  field. repeat split; first [assumption|lra].
Qed.
Lemma N_HD_a w t : a < t < b -> is_derive (fun s => exp s * H s * exp s) t w ->
  (Nt_HD_wk K k (N_sample K U tt te y t) > 0)%R ->
  (Nt_HD_wk K k (N_sample K U tt te y t))^2 = k^2 - exp t * H t * w / exp t.
Proof.
  intros Ht D W. pose proof (N_H_derive K U tt te y a b B t Ht) as DH. apply is_derive_unique in D. rewrite <- D.
  destruct (N_pos K U tt te y a b B t Ht) as (Hp & _).
  assert (PA : 0 < exp t) by apply exp_pos.
  match goal with |- context [Derive ?f t] => assert (DD : exists l, is_derive f t l /\ l = (exp t)^2 * (2 * H t + N_dH K U tt te y t)) end.
  { eexists. split; [auto_derive; [repeat split; try exd|reflexivity]|]. undd. toR. ring. }
  destruct DD as (l & DD & El). rewrite (is_derive_unique _ _ _ DD), El.
  unfold Nt_HD_wk in *. cbv zeta in *. unfold N_sample in *. cbn [s_N s_H s_phi s_dphidN] in *.
  rewrite pos_sqrt_sq by exact W.
  unfold N_dH. field. split; lra.
Qed.
End HDN.
