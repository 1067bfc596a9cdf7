(** C51-C56, C77, C78: perturbation equations, vacua and their combination. *)
From Coq Require Import Reals List String Lra Lia.
From Coquelicot Require Import Coquelicot.
From Verif Require Import Base Model.Potentials Model.Equations Model.Background Model.Perturbations
  Spec.BackgroundSpec Spec.PerturbationSpec Proofs.PhiEnd Proofs.BackgroundT Proofs.BackgroundN Proofs.BackgroundTN
  Proofs.BackgroundEx Proofs.PertT Proofs.PertVac Proofs.PertComb.
Import ListNotations.
Open Scope R_scope.

(* ------------------------------------------------------------------ *)
(** ** C51: matching of the vacuum initial conditions *)
Theorem C51_coefficients_match :
  forall uk duk y1 dy1 y2 dy2 : C, (y1 * dy2 - dy1 * y2 <> 0)%C ->
  let ab := coefficients_a_b uk duk y1 dy1 y2 dy2 in
  (fst ab * y1 + snd ab * y2 = uk)%C /\ (fst ab * dy1 + snd ab * dy2 = duk)%C /\
  (forall c d : C, (c * y1 + d * y2 = uk)%C -> (c * dy1 + d * dy2 = duk)%C -> (c, d) = ab).
Proof.
  intros uk duk y1 dy1 y2 dy2 W. cbv zeta. destruct (coeffs_ok uk duk y1 dy1 y2 dy2 W) as [A B].
  split; [exact A|]. split; [exact B|]. intros c d. apply coeffs_unique, W.
Qed.
Theorem C51_nonvacuous : (1 * 1 - Ci * 0 <> 0)%C.
Proof. intros X. apply (f_equal fst) in X. cbn in X. lra. Qed.

(* ------------------------------------------------------------------ *)
(** ** C78: the spectrum does not depend on the pair of starting solutions *)
(** The numerical integrator is an oracle: for initial data (x,d) it returns the values
    [u x + v d] (and derivatives) along its grid, with (u,v) = (1,0), derivative (0,1), at the
    first point; grids may differ between runs. [np.nanmedian] of equal values is that value. *)
Definition median_of_equal (nanmedian : list C -> C) : Prop :=
  forall c l, l <> [] -> (forall z, In z l -> z = c) -> nanmedian l = c.
Definition propagates (P D : list (C * C)) (ue ve : C) : Prop :=
  (exists r s, P = (RtoC 1, RtoC 0) :: r /\ D = (RtoC 0, RtoC 1) :: s) /\
  (forall m, In m (last_five P) -> m = (ue, ve)).
Definition run (x d : C) : list (C * C) -> list C := map (fun m : C * C => (fst m * x + snd m * d)%C).

Theorem C78_spectrum_independent_of_start :
  forall nanmedian norm uk duk ue ve P1 D1 P2 D2 (x1 d1 x2 d2 : C),
  median_of_equal nanmedian -> propagates P1 D1 ue ve -> propagates P2 D2 ue ve ->
  (x1 * d2 - d1 * x2 <> 0)%C ->
  combine_solutions nanmedian norm (uk, duk) (run x1 d1 P1) (run x1 d1 D1) (run x2 d2 P2) (run x2 d2 D2)
  = Ok (Cmod (ue * uk + ve * duk)%C ^ 2 * norm).
Proof.
  intros m n uk duk ue ve P1 D1 P2 D2 x1 d1 x2 d2 M [S1 F1] [S2 F2] W.
  exact (combine_basis m n uk duk ue ve P1 P2 D1 D2 x1 d1 x2 d2 M W S1 S2 F1 F2).
Qed.
Theorem C78_nonvacuous : 
  propagates [(RtoC 1, RtoC 0); (RtoC 2, Ci); (RtoC 2, Ci); (RtoC 2, Ci); (RtoC 2, Ci); (RtoC 2, Ci)] [(RtoC 0, RtoC 1)] (RtoC 2) Ci
  /\ median_of_equal (fun l => hd (RtoC 0) l).
Proof.
  split.
  - split; [do 2 eexists; split; reflexivity|]. intros x Hx. cbn in Hx. intuition congruence.
  - intros c l NE A. destruct l; [congruence|]. apply A. left. reflexivity.
Qed.

(* ------------------------------------------------------------------ *)
(** ** C52: cosmic time and e-folds describe the same oscillators *)
Theorem C52_scalar_equivalent :
  forall K k U tt te y a b n0 n1 tau (f : R -> R),
  T_background K U te y a b -> clock (T_N te y) a b tau n0 n1 ->
  (forall t, a < t < b -> pV U (T_phi te y t) <> 3 * K * exp (-2 * T_N te y t) /\ T_dphi te y t <> 0 /\
     kappa2 K k + K * (T_dphi te y t)^2 / (2 * (T_Hub K U te y t)^2) <> 0) ->
  let yN := fun n => state_T2N K U tt te (tau n) (y (tau n)) in
  oscillator (fun n => Ns_damping K k U (N_sample K U tt te yN n))
             (fun n => Ns_frequency2 K k U (N_sample K U tt te yN n)) f n0 n1
  <-> oscillator (fun t => Ts_damping K k U (T_sample K U te y t))
                 (fun t => Ts_frequency2 K k U (T_sample K U te y t)) (fun t => f (T_N te y t)) a b.
Proof.
  intros K k U tt te y a b n0 n1 tau f B CL NZ. cbv zeta.
  apply (MS_TN_scalar K k U tt te y a b n0 n1 tau B CL); intros t Ht; apply (NZ t Ht).
Qed.
Theorem C52_tensor_equivalent :
  forall K k U tt te y a b n0 n1 tau (f : R -> R),
  T_background K U te y a b -> clock (T_N te y) a b tau n0 n1 ->
  (forall t, a < t < b -> pV U (T_phi te y t) <> 3 * K * exp (-2 * T_N te y t)) ->
  let yN := fun n => state_T2N K U tt te (tau n) (y (tau n)) in
  oscillator (fun n => Nt_damping K (N_sample K U tt te yN n))
             (fun n => Nt_frequency2 K k (N_sample K U tt te yN n)) f n0 n1
  <-> oscillator (fun t => Tt_damping (T_sample K U te y t))
                 (fun t => Tt_frequency2 K k (T_sample K U te y t)) (fun t => f (T_N te y t)) a b.
Proof.
  intros K k U tt te y a b n0 n1 tau f B CL NZ. cbv zeta.
  apply (MS_TN_tensor K k U tt te y a b n0 n1 tau B CL). exact NZ.
Qed.
(** the frequency handed to the integrator squares to the coefficient, also where it is negative *)
Theorem C52_frequency_is_square_root :
  forall f2 : list R, map (fun w => Cmult w w) (ms_frequency f2) = map RtoC f2.
Proof. exact ms_frequency_sq. Qed.

Lemma closed_clock : clock (T_N true y_closed) 1 3 exp 0 (ln 3).
Proof.
  split.
  - intros n [H1 H2]. unfold T_N, y_closed. cbn. split; [|apply ln_exp].
    split; [rewrite <- exp_0; apply exp_increasing, H1|]. rewrite <- (exp_ln 3) by lra. apply exp_increasing, H2.
  - intros t [H1 H2]. unfold T_N, y_closed. cbn. split; [|apply exp_ln; lra].
    split; [rewrite <- ln_1; apply ln_increasing; lra|apply ln_increasing; lra].
Qed.
Lemma closed_Hub t : 0 < t -> T_Hub 1 (Vexp 4) true y_closed t = / t.
Proof. intros. unfold T_Hub. rewrite closed_H2 by assumption. apply sqrt_pow2. left. apply Rinv_0_lt_compat. assumption. Qed.
Lemma flat_Hub t : 0 < t -> T_Hub 0 (Vexp 10) true y_flat t = 2 / t.
Proof. intros. unfold T_Hub. rewrite flat_H2 by assumption. apply sqrt_pow2. left. apply Rdiv_lt_0_compat; lra. Qed.
Lemma closed_dphi t : T_dphi true y_closed t = 2 / t. Proof. reflexivity. Qed.
Lemma flat_dphi t : T_dphi true y_flat t = 2 / t. Proof. reflexivity. Qed.
Lemma closed_a t : 0 < t -> exp (T_N true y_closed t) = t.
Proof. intros. unfold T_N, y_closed. cbn. apply exp_ln. assumption. Qed.
Lemma flat_a t : 0 < t -> exp (T_N true y_flat t) = t^2.
Proof. intros. unfold T_N, y_flat. cbn. replace (2 * ln t) with (ln t + ln t) by ring. rewrite exp_plus, exp_ln by assumption. ring. Qed.
Lemma closed_dV t : 0 < t -> pdV (Vexp 4) (T_phi true y_closed t) = - 4 / t^2.
Proof. intros. unfold T_phi, y_closed, Vexp. cbn. rewrite exp_m2ln by assumption. field. lra. Qed.
Lemma closed_d2V t : 0 < t -> pd2V (Vexp 4) (T_phi true y_closed t) = 4 / t^2.
Proof. intros. unfold T_phi, y_closed, Vexp. cbn. rewrite exp_m2ln by assumption. field. lra. Qed.
Lemma closed_ok k t : 0 < t -> kappa2 1 k <> -2 ->
  T_dphi true y_closed t <> 0 /\ kappa2 1 k + 1 * (T_dphi true y_closed t)^2 / (2 * (T_Hub 1 (Vexp 4) true y_closed t)^2) <> 0.
Proof.
  intros Ht Nk. rewrite closed_Hub, closed_dphi by assumption. split.
  - apply Rgt_not_eq. apply Rdiv_lt_0_compat; lra.
  - replace (1 * (2 / t)^2 / (2 * (/ t)^2)) with 2 by (field; lra). intros X. apply Nk. lra.
Qed.
Theorem C52_nonvacuous :
  T_background 1 (Vexp 4) true y_closed 1 3 /\ clock (T_N true y_closed) 1 3 exp 0 (ln 3) /\
  (forall t, 1 < t < 3 -> pV (Vexp 4) (T_phi true y_closed t) <> 3 * 1 * exp (-2 * T_N true y_closed t) /\ T_dphi true y_closed t <> 0 /\
     kappa2 1 2 + 1 * (T_dphi true y_closed t)^2 / (2 * (T_Hub 1 (Vexp 4) true y_closed t)^2) <> 0).
Proof.
  split; [exact closed_background|]. split; [exact closed_clock|]. intros t Ht. split.
  - unfold T_phi, T_N, y_closed, Vexp. cbn. rewrite exp_m2ln by lra. replace (-2 * ln t) with (- (2 * ln t)) by ring. rewrite exp_m2ln by lra.
    assert (0 < / t^2) by (apply Rinv_0_lt_compat, pow_lt; lra). intros X; lra.
  - apply closed_ok; [lra|]. unfold kappa2. intros X; lra.
Qed.

(* ------------------------------------------------------------------ *)
(** ** C53: canonical form of the Mukhanov-Sasaki equation *)
Theorem C53_flat_scalar :
  forall k U te y a b t, T_background 0 U te y a b -> k <> 0 -> a < t < b -> T_dphi te y t <> 0 ->
  let s := T_sample 0 U te y t in let z := zvar 0 U te y in
  exists dz, is_derive z t dz /\ 2 * Ts_damping 0 k U s = T_Hub 0 U te y t + 2 * (dz / z t) /\
             Ts_frequency2 0 k U s = k^2 / (exp (T_N te y t))^2.
Proof.
  intros k U te y a b t B Hk Ht Np. cbv zeta. eexists. split; [apply (zvar_derive 0 U te y a b B t Ht Np)|].
  destruct (flat_MS 0 k U te y a b B t eq_refl Hk Ht Np) as [A1 A2]. split; [|exact A2]. rewrite A1.
  destruct (T_pos 0 U te y a b B t Ht) as [Hp _].
  assert (Z : zvar 0 U te y t <> 0).
  { unfold zvar, Rdiv. apply Rmult_integral_contrapositive_currified; [|apply Rinv_neq_0_compat; lra].
    apply Rmult_integral_contrapositive_currified; [apply Rgt_not_eq, exp_pos|exact Np]. }
  field. repeat split; first [assumption|lra].
Qed.
Theorem C53_flat_tensor :
  forall k U te y a b t, T_background 0 U te y a b -> a < t < b ->
  let s := T_sample 0 U te y t in let A := fun x => exp (T_N te y x) in
  exists dA, is_derive A t dA /\ 2 * Tt_damping s = T_Hub 0 U te y t + 2 * (dA / A t) /\
             Tt_frequency2 0 k s = k^2 / (A t)^2.
Proof.
  intros k U te y a b t B Ht. cbv zeta. destruct (T_comps 0 U te y a b B t Ht) as (_ & _ & DN & _).
  exists (exp (T_N te y t) * T_Hub 0 U te y t). split.
  { evar_last; [auto_derive; [repeat split; exd|reflexivity]|]. undd. toR. ring. }
  assert (PA : exp (T_N te y t) <> 0) by (apply Rgt_not_eq, exp_pos).
  unfold Tt_damping, Tt_frequency2, T_sample; cbn [s_N s_H]. rewrite exp_m2. split; field; assumption.
Qed.
(** for every curvature: the scalar damping is the logarithmic derivative of a Z^2,
    so the weighted Wronskian of any two solutions is conserved (canonical commutation relations) *)
Theorem C53_curved_scalar :
  forall K k U te y a b (f h : R -> R), T_background K U te y a b -> kappa2 K k <> 0 ->
  (forall t, a < t < b -> T_dphi te y t <> 0 /\ kappa2 K k + K * (T_dphi te y t)^2 / (2 * (T_Hub K U te y t)^2) <> 0) ->
  let g := fun t => Ts_damping K k U (T_sample K U te y t) in
  let w := fun t => Ts_frequency2 K k U (T_sample K U te y t) in
  let aZ2 := fun t => exp (T_N te y t) * Z2var K k U te y t in
  (forall t, a < t < b -> is_derive aZ2 t (2 * g t * aZ2 t)) /\
  (oscillator g w f a b -> oscillator g w h a b ->
   forall t1 t2, a < t1 < b -> a < t2 < b ->
   aZ2 t1 * (f t1 * Derive h t1 - h t1 * Derive f t1) = aZ2 t2 * (f t2 * Derive h t2 - h t2 * Derive f t2)).
Proof.
  intros K k U te y a b f h B N0 NZ. cbv zeta.
  assert (D : forall t, a < t < b -> is_derive (fun t => exp (T_N te y t) * Z2var K k U te y t) t
     (2 * Ts_damping K k U (T_sample K U te y t) * (exp (T_N te y t) * Z2var K k U te y t))).
  { intros t Ht. destruct (NZ t Ht) as [Np Nk]. apply Z2_damping with (a := a) (b := b); assumption. }
  split; [exact D|]. intros F G. exact (conserved_wronskian _ _ (fun t => exp (T_N te y t) * Z2var K k U te y t) f h a b D F G).
Qed.
(** the same for tensors with weight a^3 *)
Theorem C53_tensor_wronskian :
  forall K k U te y a b (f h : R -> R), T_background K U te y a b ->
  let g := fun t => Tt_damping (T_sample K U te y t) in
  let w := fun t => Tt_frequency2 K k (T_sample K U te y t) in
  let a3 := fun t => (exp (T_N te y t))^3 in
  oscillator g w f a b -> oscillator g w h a b ->
  forall t1 t2, a < t1 < b -> a < t2 < b ->
  a3 t1 * (f t1 * Derive h t1 - h t1 * Derive f t1) = a3 t2 * (f t2 * Derive h t2 - h t2 * Derive f t2).
Proof.
  intros K k U te y a b f h B. cbv zeta. intros F G.
  refine (conserved_wronskian _ _ (fun t => (exp (T_N te y t))^3) f h a b _ F G).
  intros t Ht. destruct (T_comps K U te y a b B t Ht) as (_ & _ & DN & _).
  evar_last; [auto_derive; [repeat split; exd|reflexivity]|]. undd. toR. unfold Tt_damping, T_sample; cbn [s_N s_H]. field.
Qed.
Theorem C53_nonvacuous :
  T_background 0 (Vexp 10) true y_flat 1 3 /\ T_dphi true y_flat 2 <> 0 /\
  T_background 1 (Vexp 4) true y_closed 1 3 /\ kappa2 1 2 <> 0 /\
  (forall t, 1 < t < 3 -> T_dphi true y_closed t <> 0 /\ kappa2 1 2 + 1 * (T_dphi true y_closed t)^2 / (2 * (T_Hub 1 (Vexp 4) true y_closed t)^2) <> 0).
Proof.
  split; [exact flat_background|]. split; [rewrite flat_dphi; intros X; lra|]. split; [exact closed_background|].
  split; [unfold kappa2; intros X; lra|]. intros t Ht. apply closed_ok; [lra|]. unfold kappa2. intros X; lra.
Qed.

(* ------------------------------------------------------------------ *)
(** ** C77: the coded scalar equation is the linearised Einstein equation, any curvature *)
Theorem C77_mukhanov_sasaki_from_einstein :
  forall K k U te y a b (Phi q : R -> R),
  T_background K U te y a b ->
  (forall t, a < t < b -> T_dphi te y t <> 0 /\ kappa2 K k + K * (T_dphi te y t)^2 / (2 * (T_Hub K U te y t)^2) <> 0) ->
  linear_einstein K k U te y Phi q a b ->
  oscillator (fun t => Ts_damping K k U (T_sample K U te y t))
             (fun t => Ts_frequency2 K k U (T_sample K U te y t)) (curvature_pert K U te y Phi q) a b.
Proof. intros K k U te y a b Phi q B. exact (Einstein_MS K k U te y a b B Phi q). Qed.
(** a decaying mode of a closed universe (K=1, a=t, kappa2=1) *)
Theorem C77_nonvacuous :
  let k := sqrt 5 - 1 in
  linear_einstein 1 k (Vexp 4) true y_closed (fun t => / t^2) (fun t => - / t^2) 1 3 /\
  (forall t, 1 < t < 3 -> T_dphi true y_closed t <> 0 /\
     kappa2 1 k + 1 * (T_dphi true y_closed t)^2 / (2 * (T_Hub 1 (Vexp 4) true y_closed t)^2) <> 0).
Proof.
  cbv zeta. assert (S : sqrt 5 * sqrt 5 = 5) by (apply sqrt_sqrt; lra).
  assert (EK : kappa2 1 (sqrt 5 - 1) = 1).
  { unfold kappa2. replace ((sqrt 5 - 1)^2 + (sqrt 5 - 1) * 1 * (1 + 1) - 3 * 1) with (sqrt 5 * sqrt 5 - 4) by ring. lra. }
  split.
  - exists (fun t => -2 / t^3), (fun t => 2 / t^3). intros t Ht. cbv zeta.
    assert (E2 : (sqrt 5 - 1)^2 + (sqrt 5 - 1) * 1 * (1 + 1) - 3 * 1 = 1) by exact EK. rewrite E2.
    rewrite closed_Hub, closed_dphi, closed_a by lra.
    split; [|split; [|split]].
    + evar_last; [auto_derive; [apply Rmult_integral_contrapositive_currified; lra|reflexivity]|]. toR. field. lra.
    + evar_last; [auto_derive; [apply Rmult_integral_contrapositive_currified; lra|reflexivity]|]. toR. field. lra.
    + field. lra.
    + rewrite closed_dV by lra. field. lra.
  - intros t Ht. apply closed_ok; [lra|]. rewrite EK. intros X; lra.
Qed.

(* ------------------------------------------------------------------ *)
(** ** C54: canonical normalisation of the vacua *)
(** scalar modes: Wronskian -i/(a z^2) per unit cosmic time, -i/(a H z^2) per e-fold *)
Theorem C54_scalar_normalisation :
  forall K k U s, s_H s > 0 -> k > 0 -> 
  let a := exp (s_N s) in
  (s_dphidt s <> 0 -> let z := a * s_dphidt s / s_H s in
   wronskian (Ts_vac_k K k U s) = (0, - (1 / (a * z^2))) /\
   wronskian (Ts_vac_RST k s) = (0, - (1 / (a * z^2))) /\
   (Ts_HD_wk K k U s > 0 -> wronskian (Ts_vac_HD K k U s) = (0, - (1 / (a * z^2))))) /\
  (s_dphidN s <> 0 -> let z := a * s_dphidN s in
   wronskian (Ns_vac_k K k U s) = (0, - (1 / (a * s_H s * z^2))) /\
   wronskian (Ns_vac_RST k s) = (0, - (1 / (a * s_H s * z^2))) /\
   (Ns_HD_wk K k U s > 0 -> wronskian (Ns_vac_HD K k U s) = (0, - (1 / (a * s_H s * z^2))))).
Proof.
  intros K k U s HP Hk. cbv zeta. assert (PA : exp (s_N s) <> 0) by (apply Rgt_not_eq, exp_pos).
  assert (PB : exp (s_N s) * s_H s <> 0) by (apply Rmult_integral_contrapositive_currified; [exact PA|lra]).
  split; intros Np.
  - assert (Z : exp (s_N s) * s_dphidt s / s_H s <> 0).
    { unfold Rdiv. apply Rmult_integral_contrapositive_currified; [apply Rmult_integral_contrapositive_currified; assumption|apply Rinv_neq_0_compat; lra]. }
    split; [|split]; [unfold Ts_vac_k; cbv zeta; rewrite wronskian_cderiv by exact PA|unfold Ts_vac_RST; cbv zeta; rewrite wronskian_rst by exact PA|
      intros W; unfold Ts_vac_HD; cbv zeta; rewrite wronskian_cderiv by exact PA];
    rewrite vac_norm by assumption; replace (1^2) with 1 by ring; reflexivity.
  - assert (Z : exp (s_N s) * s_dphidN s <> 0) by (apply Rmult_integral_contrapositive_currified; assumption).
    split; [|split]; [unfold Ns_vac_k; cbv zeta; rewrite wronskian_cderiv by exact PB|unfold Ns_vac_RST; cbv zeta; rewrite wronskian_rst by exact PB|
      intros W; unfold Ns_vac_HD; cbv zeta; rewrite wronskian_cderiv by exact PB];
    rewrite vac_norm by assumption; replace (1^2) with 1 by ring; reflexivity.
Qed.
(** tensor modes: four times that with z = a *)
Theorem C54_tensor_normalisation :
  forall K k s, s_H s > 0 -> k > 0 ->
  let a := exp (s_N s) in
  wronskian (Tt_vac_k k s) = (0, - (4 / (a * a^2))) /\ wronskian (Tt_vac_RST k s) = (0, - (4 / (a * a^2))) /\
  (Tt_HD_wk K k s > 0 -> wronskian (Tt_vac_HD K k s) = (0, - (4 / (a * a^2)))) /\
  wronskian (Nt_vac_k k s) = (0, - (4 / (a * s_H s * a^2))) /\ wronskian (Nt_vac_RST k s) = (0, - (4 / (a * s_H s * a^2))) /\
  (Nt_HD_wk K k s > 0 -> wronskian (Nt_vac_HD K k s) = (0, - (4 / (a * s_H s * a^2)))).
Proof.
  intros K k s HP Hk. cbv zeta. assert (PA : exp (s_N s) <> 0) by (apply Rgt_not_eq, exp_pos).
  assert (PB : exp (s_N s) * s_H s <> 0) by (apply Rmult_integral_contrapositive_currified; [exact PA|lra]).
  replace 4 with (2^2) by ring.
  split; [unfold Tt_vac_k; cbv zeta; rewrite wronskian_cderiv, vac_norm by assumption; reflexivity|].
  split; [unfold Tt_vac_RST; cbv zeta; rewrite wronskian_rst, vac_norm by assumption; reflexivity|].
  split; [intros W; unfold Tt_vac_HD; cbv zeta; rewrite wronskian_cderiv, vac_norm by assumption; reflexivity|].
  split; [unfold Nt_vac_k; cbv zeta; rewrite wronskian_cderiv, vac_norm by assumption; reflexivity|].
  split; [unfold Nt_vac_RST; cbv zeta; rewrite wronskian_rst, vac_norm by assumption; reflexivity|].
  intros W; unfold Nt_vac_HD; cbv zeta; rewrite wronskian_cderiv, vac_norm by assumption; reflexivity.
Qed.

(* ------------------------------------------------------------------ *)
(** ** C55: vacua agree between cosmic time and e-folds *)
(** the e-fold sample of the same physical state *)
Definition matching (K : R) (s s' : sample) : Prop :=
  s_N s' = s_N s /\ s_H s' = s_H s /\ s_phi s' = s_phi s /\ s_dphidN s' = s_dphidt s / s_H s /\
  s_OmK s' = OmegaK_attr K (s_N s) (s_H s).
Definition agree (H : R) (vT vN : C * C) : Prop := fst vT = fst vN /\ (snd vT = RtoC H * snd vN)%C.

Theorem C55_vacua_agree :
  forall K k U s s', matching K s s' -> s_H s > 0 ->
  (s_dphidt s <> 0 -> agree (s_H s) (Ts_vac_k K k U s) (Ns_vac_k K k U s')) /\
  agree (s_H s) (Ts_vac_RST k s) (Ns_vac_RST k s') /\
  (K = 0 -> s_dphidt s <> 0 -> agree (s_H s) (Ts_vac_HD K k U s) (Ns_vac_HD K k U s')) /\
  agree (s_H s) (Tt_vac_k k s) (Nt_vac_k k s') /\
  agree (s_H s) (Tt_vac_RST k s) (Nt_vac_RST k s') /\
  agree (s_H s) (Tt_vac_HD K k s) (Nt_vac_HD K k s').
Proof.
  intros K k U s s' M HP.
  split; [intros Np; exact (same_vac_k K k U s s' M HP Np)|]. split; [exact (same_vac_RST K k s s' M HP)|].
  split; [intros K0 Np; exact (same_vac_HD K k U s s' M HP K0 Np)|]. split; [exact (same_tvac_k K k s s' M HP)|].
  split; [exact (same_tvac_RST K k s s' M HP)|]. exact (same_tvac_HD K k s s' M HP).
Qed.

(* ------------------------------------------------------------------ *)
(** ** C56: the HD frequency *)
(** conformal time: d/deta = a d/dt = a H d/dN, so z'' = a (a z_t)_t = aH (aH z_N)_N *)
Theorem C56_HD_time_partial :
  forall K k U te y a b t z1 w,
  T_background K U te y a b -> (forall s, a < s < b -> T_dphi te y s <> 0) -> a < t < b ->
  let A := fun s => exp (T_N te y s) in let z := zvar K U te y in
  (forall s, a < s < b -> is_derive z s (z1 s)) -> is_derive (fun s => A s * z1 s) t w ->
  Ts_HD_wk K k U (T_sample K U te y t) > 0 ->
  (Ts_HD_wk K k U (T_sample K U te y t))^2 = k^2 - A t * w / z t - 3 * K.
Proof.
  intros K k U te y a b t z1 w B NZ Ht. cbv zeta. intros D1 D2 W.
  rewrite T_rad_eq in *. rewrite pos_sqrt_sq by exact W. exact (T_HD_z K k U te y a b B NZ z1 w t Ht D1 D2).
Qed.
Theorem C56_HD_efolds :
  forall K k U tt te y a b n z1 w,
  N_background K U tt te y a b -> (forall s, a < s < b -> N_dphi tt te y s <> 0) -> a < n < b ->
  let A := fun s => exp s in let H := N_Hub K U tt te y in let z := zvarN tt te y in
  (forall s, a < s < b -> is_derive z s (z1 s)) -> is_derive (fun s => A s * H s * z1 s) n w ->
  Ns_HD_wk K k U (N_sample K U tt te y n) > 0 ->
  (Ns_HD_wk K k U (N_sample K U tt te y n))^2 = k^2 - A n * H n * w / z n.
Proof.
  intros K k U tt te y a b n z1 w B NZ Hn. cbv zeta. intros D1 D2 W.
  rewrite N_rad_eq in *. rewrite pos_sqrt_sq by exact W. exact (N_HD_z K k U tt te y a b B NZ z1 w n Hn D1 D2).
Qed.
(** tensors, both clocks, z = a *)
Theorem C56_HD_tensor :
  (forall K k U te y a b t w, T_background K U te y a b -> a < t < b ->
   let A := fun s => exp (T_N te y s) in
   is_derive (fun s => A s * (A s * T_Hub K U te y s)) t w ->   (* a (da/dt), da/dt = a H *)
   Tt_HD_wk K k (T_sample K U te y t) > 0 ->
   (Tt_HD_wk K k (T_sample K U te y t))^2 = k^2 - A t * w / A t) /\
  (forall K k U tt te y a b n w, N_background K U tt te y a b -> a < n < b ->
   let H := N_Hub K U tt te y in
   is_derive (fun s => exp s * H s * exp s) n w ->
   Nt_HD_wk K k (N_sample K U tt te y n) > 0 ->
   (Nt_HD_wk K k (N_sample K U tt te y n))^2 = k^2 - exp n * H n * w / exp n).
Proof.
  split.
  - intros K k U te y a b t w B Ht. cbv zeta. apply (T_HD_a K k U te y a b B w t Ht).
  - intros K k U tt te y a b n w B Hn. cbv zeta. apply (N_HD_a K k U tt te y a b B w n Hn).
Qed.

(** concrete states *)
Lemma closed_z t : 1 < t < 3 -> is_derive (zvar 1 (Vexp 4) true y_closed) t 2.
Proof.
  intros Ht. apply (ext_in2 (fun s => 2 * s) _ 1 3); [exact Ht| |evar_last; [auto_derive; [exact I|reflexivity]|toR; ring]].
  intros s Hs. unfold zvar. rewrite closed_a, closed_dphi, closed_Hub by lra. field. lra.
Qed.
Lemma closed_az : is_derive (fun s => exp (T_N true y_closed s) * 2) 2 2.
Proof.
  apply (ext_in2 (fun s => s * 2) _ 1 3); [lra| |evar_last; [auto_derive; [exact I|reflexivity]|toR; ring]].
  intros s Hs. rewrite closed_a by lra. reflexivity.
Qed.
(** at t=2 with K=1, k=5: the code's radicand is 21/4 instead of 24/4 *)
Lemma closed_rad : T_rad 1 5 (Vexp 4) (T_sample 1 (Vexp 4) true y_closed 2) = 21 / 4.
Proof.
  pose proof (T_HD_z 1 5 (Vexp 4) true y_closed 1 3 closed_background
    (fun t Ht => proj1 (closed_ok 2 t ltac:(lra) ltac:(unfold kappa2; intros X; lra))) (fun _ => 2) 2 2 ltac:(lra) closed_z closed_az) as E.
  assert (Z : zvar 1 (Vexp 4) true y_closed 2 = 4) by (unfold zvar; rewrite closed_a, closed_dphi, closed_Hub by lra; field).
  rewrite Z, closed_a in E by lra. lra.
Qed.
Theorem C56_time_nonvacuous : Ts_HD_wk 1 5 (Vexp 4) (T_sample 1 (Vexp 4) true y_closed 2) > 0.
Proof. rewrite T_rad_eq, closed_rad. apply Rmult_lt_0_compat; [apply exp_pos|apply sqrt_lt_R0; lra]. Qed.
(** the full claim (frequency^2 = k^2 - z''/z for every K) fails for the cosmic-time class in curved space *)
Theorem C56_HD_time_refuted :
  ~ (forall K k U te y a b t z1 w,
     T_background K U te y a b -> (forall s, a < s < b -> T_dphi te y s <> 0) -> a < t < b ->
     let A := fun s => exp (T_N te y s) in let z := zvar K U te y in
     (forall s, a < s < b -> is_derive z s (z1 s)) -> is_derive (fun s => A s * z1 s) t w ->
     Ts_HD_wk K k U (T_sample K U te y t) > 0 ->
     (Ts_HD_wk K k U (T_sample K U te y t))^2 = k^2 - A t * w / z t).
Proof.
  intros C.
  pose proof (C 1 5 (Vexp 4) true y_closed 1 3 2 (fun _ => 2) 2 closed_background
    (fun t Ht => proj1 (closed_ok 2 t ltac:(lra) ltac:(unfold kappa2; intros X; lra))) ltac:(lra) closed_z closed_az C56_time_nonvacuous) as E1.
  pose proof (C56_HD_time_partial 1 5 (Vexp 4) true y_closed 1 3 2 (fun _ => 2) 2 closed_background
    (fun t Ht => proj1 (closed_ok 2 t ltac:(lra) ltac:(unfold kappa2; intros X; lra))) ltac:(lra) closed_z closed_az C56_time_nonvacuous) as E2.
  cbv zeta in E1, E2. rewrite E1 in E2. lra.
Qed.
Lemma closed_matching : matching 1 (T_sample 1 (Vexp 4) true y_closed 2)
  (mksample (T_N true y_closed 2) (T_Hub 1 (Vexp 4) true y_closed 2) (T_phi true y_closed 2) 0
     (T_dphi true y_closed 2 / T_Hub 1 (Vexp 4) true y_closed 2) (OmegaK_attr 1 (T_N true y_closed 2) (T_Hub 1 (Vexp 4) true y_closed 2))).
Proof. repeat split. Qed.
(** ... and with it the agreement of the HD vacua between the two clocks *)
Theorem C55_curved_HD_refuted :
  ~ (forall K k U s s', matching K s s' -> s_H s > 0 -> s_dphidt s <> 0 ->
     Ts_HD_wk K k U s > 0 -> Ns_HD_wk K k U s' > 0 -> agree (s_H s) (Ts_vac_HD K k U s) (Ns_vac_HD K k U s')).
Proof.
  intros C. pose proof closed_matching as M. pose proof C56_time_nonvacuous as W.
  set (s := T_sample 1 (Vexp 4) true y_closed 2) in *.
  match type of M with matching _ _ ?x => set (s' := x) in * end.
  assert (EH : s_H s = / 2) by (unfold s, T_sample; cbn [s_H]; apply closed_Hub; lra).
  assert (HP : 0 < s_H s) by (rewrite EH; lra).
  assert (Ep : s_dphidt s = 1) by (unfold s, T_sample; cbn [s_dphidt]; rewrite closed_dphi; field).
  assert (EA : exp (s_N s) = 2) by (unfold s, T_sample; cbn [s_N]; apply closed_a; lra).
  assert (Np : s_dphidt s <> 0) by (rewrite Ep; lra).
  pose proof (same_rad 1 5 (Vexp 4) s s' M HP Np) as ER. change (T_rad 1 5 (Vexp 4) s) with (T_rad 1 5 (Vexp 4) (T_sample 1 (Vexp 4) true y_closed 2)) in ER.
  rewrite closed_rad, EH, EA in ER. assert (NR : N_rad 1 5 (Vexp 4) s' = 24) by lra.
  assert (EN : Ns_HD_wk 1 5 (Vexp 4) s' = sqrt 24).
  { rewrite N_rad_eq, NR. destruct M as (E1 & E2 & _). rewrite E1, E2, EA, EH. field. }
  assert (ET : Ts_HD_wk 1 5 (Vexp 4) s = sqrt 21).
  { rewrite T_rad_eq. unfold s at 2. rewrite closed_rad, EA. replace (21 / 4) with (21 * (/2)^2) by field.
    rewrite sqrt_mult_alt, sqrt_pow2 by lra. field. }
  assert (WN : Ns_HD_wk 1 5 (Vexp 4) s' > 0) by (rewrite EN; apply sqrt_lt_R0; lra).
  destruct (C 1 5 (Vexp 4) s s' M HP Np W WN) as [F _].
  pose proof (same_z 1 s s' M HP) as Z.
  unfold Ts_vac_HD, Ns_vac_HD in F. cbv zeta in F. cbn [fst] in F. rewrite Z in F. apply RtoC_inj in F.
  rewrite EN, ET, EA, EH, Ep in F.
  assert (A1 : 0 < sqrt 21) by (apply sqrt_lt_R0; lra). assert (A2 : 0 < sqrt 24) by (apply sqrt_lt_R0; lra).
  assert (A3 : sqrt 21 < sqrt 24) by (apply sqrt_lt_1; lra).
  assert (A4 : sqrt (2 * sqrt 21) < sqrt (2 * sqrt 24)) by (apply sqrt_lt_1; lra).
  assert (A5 : 0 < sqrt (2 * sqrt 21)) by (apply sqrt_lt_R0; lra).
  assert (A6 : / sqrt (2 * sqrt 24) < / sqrt (2 * sqrt 21)) by (apply Rinv_lt_contravar; [apply Rmult_lt_0_compat|]; lra).
  assert (A7 : 2 * 1 / / 2 = 4) by field. rewrite A7 in F. lra.
Qed.
Theorem C54_nonvacuous :
  let s := T_sample 1 (Vexp 4) true y_closed 2 in
  s_H s > 0 /\ s_dphidt s <> 0 /\ s_dphidN s <> 0 /\ Ts_HD_wk 1 5 (Vexp 4) s > 0 /\ Tt_HD_wk 1 5 s > 0.
Proof.
  cbv zeta. assert (HH : T_Hub 1 (Vexp 4) true y_closed 2 = / 2) by (apply closed_Hub; lra).
  split; [unfold T_sample; cbn [s_H]; rewrite HH; lra|]. split; [unfold T_sample; cbn [s_dphidt]; rewrite closed_dphi; intros X; lra|].
  split. { unfold T_sample; cbn [s_dphidN]. rewrite closed_dphi, HH. intros X. lra. }
  split; [exact C56_time_nonvacuous|]. unfold Tt_HD_wk, T_get_dH, T_sample. cbn [s_N s_H s_dphidt].
  rewrite exp_m2, closed_a, HH, closed_dphi by lra. apply Rmult_lt_0_compat; [lra|]. apply sqrt_lt_R0. lra.
Qed.
Theorem C55_nonvacuous :
  matching 1 (T_sample 1 (Vexp 4) true y_closed 2)
    (N_sample 1 (Vexp 4) true true (fun n => state_T2N 1 (Vexp 4) true true (exp n) (y_closed (exp n))) (T_N true y_closed 2)).
Proof. apply (T2N_same 1 (Vexp 4) true true y_closed 1 3 0 (ln 3) exp closed_background closed_clock); [intros t Ht; apply (proj2 (proj2 C52_nonvacuous)), Ht|lra]. Qed.
Theorem C56_efolds_nonvacuous :
  let yN := fun n => state_T2N 1 (Vexp 4) true true (exp n) (y_closed (exp n)) in
  N_background 1 (Vexp 4) true true yN 0 (ln 3) /\
  (forall n, 0 < n < ln 3 -> N_dphi true true yN n <> 0) /\ 0 < ln 2 < ln 3 /\
  Ns_HD_wk 1 5 (Vexp 4) (N_sample 1 (Vexp 4) true true yN (ln 2)) > 0.
Proof.
  cbv zeta. split; [|split; [|split]].
  - apply (T2N_solution 1 (Vexp 4) true true y_closed 1 3 exp 0 (ln 3) closed_background).
    + intros t Ht; apply (proj2 (proj2 C52_nonvacuous)), Ht.
    + exact (proj1 closed_clock).
  - intros n Hn. unfold N_dphi. rewrite var_T2N_dphi. destruct (proj1 closed_clock n Hn) as [L _].
    change (T_dphi true y_closed (exp n) / T_Hub 1 (Vexp 4) true y_closed (exp n) <> 0).
    rewrite closed_dphi, closed_Hub by lra. replace (2 / exp n / / exp n) with 2 by (field; lra). intros X; lra.
  - split; [rewrite <- ln_1|]; apply ln_increasing; lra.
  - rewrite N_rad_eq. set (sn := N_sample _ _ _ _ _ _).
    pose proof C55_nonvacuous as M. change (matching 1 (T_sample 1 (Vexp 4) true y_closed 2) sn) in M.
    set (s := T_sample 1 (Vexp 4) true y_closed 2) in *.
    assert (EH : s_H s = / 2) by (unfold s, T_sample; cbn [s_H]; apply closed_Hub; lra).
    assert (Ep : s_dphidt s = 1) by (unfold s, T_sample; cbn [s_dphidt]; rewrite closed_dphi; field).
    assert (EA : exp (s_N s) = 2) by (unfold s, T_sample; cbn [s_N]; apply closed_a; lra).
    pose proof (same_rad 1 5 (Vexp 4) s sn M ltac:(rewrite EH; lra) ltac:(rewrite Ep; lra)) as ER.
    pose proof closed_rad as CR. fold s in CR. rewrite CR, EH, EA in ER.
    destruct M as (E1 & E2 & _). rewrite E1, E2, EA, EH. apply Rmult_lt_0_compat; [lra|]. apply sqrt_lt_R0. lra.
Qed.
