(** Mukhanov-Sasaki coefficients along background solutions. *)
From Coq Require Import Reals List String Lra Lia.
From Coquelicot Require Import Coquelicot.
From Verif Require Import Base Model.Potentials Model.Equations Model.Background Model.Perturbations
  Spec.BackgroundSpec Spec.PerturbationSpec Proofs.PhiEnd Proofs.BackgroundT Proofs.BackgroundN Proofs.BackgroundTN.
Import ListNotations.
Open Scope R_scope.

Lemma exp_m2 x : exp (-2 * x) = / (exp x)^2.
Proof. replace (-2 * x) with (- x + - x) by ring. rewrite exp_plus, exp_Ropp. field. apply Rgt_not_eq, exp_pos. Qed.
Lemma exp_2 x : exp (2 * x) = (exp x)^2.
Proof. replace (2 * x) with (x + x) by ring. rewrite exp_plus. ring. Qed.
Lemma OmegaK_attr_eq K N H : 0 < H -> OmegaK_attr K N H = - K * exp (-2 * N) / H^2.
Proof.
  intros HH. unfold OmegaK_attr. replace (-2 * (N + ln H)) with (-2 * N + - (ln H + ln H)) by ring.
  rewrite exp_plus, exp_Ropp, exp_plus, exp_ln by assumption. field. lra.
Qed.

Section T.
Variables (K k : R) (U : potfun) (te : bool) (y : R -> list R) (a b : R).
Hypothesis B : T_background K U te y a b.
Notation phi := (T_phi te y). Notation p := (T_dphi te y). Notation Nf := (T_N te y). Notation H := (T_Hub K U te y).

Lemma Einstein_MS (Phi q : R -> R) :
  (forall t, a < t < b -> p t <> 0 /\ kappa2 K k + K * (p t)^2 / (2 * (H t)^2) <> 0) ->
  linear_einstein K k U te y Phi q a b ->
  oscillator (fun t => Ts_damping K k U (T_sample K U te y t))
             (fun t => Ts_frequency2 K k U (T_sample K U te y t)) (curvature_pert K U te y Phi q) a b.
Proof.
  intros NZ (dP & dq & E).
  exists (fun t => K * (q t / p t) * exp (-2 * Nf t) - 2 * H t * kappa2 K k * exp (-2 * Nf t) * Phi t / (p t)^2).
  intros t Ht. destruct (NZ t Ht) as [Np Nk]. destruct (E t Ht) as (DP & Dq & E1 & E2). cbv zeta in E1, E2.
  destruct (T_comps K U te y a b B t Ht) as (_ & Dp & DN & _).
  destruct (T_pos K U te y a b B t Ht) as [Hp _].
  pose proof (T_H_derive K U te y a b B t Ht) as DH.
  assert (EA : exp (-2 * Nf t) = / (exp (Nf t))^2) by apply exp_m2.
  assert (PA : exp (Nf t) <> 0) by (apply Rgt_not_eq, exp_pos).
  assert (X1 : dP t = p t * q t / 2 - H t * Phi t) by lra.
  assert (X2 : dq t = (2 * (- kappa2 K k / (exp (Nf t))^2 * Phi t - 3 * H t * (p t * q t / 2)) + (p t)^2 * Phi t - pdV U (phi t) * q t) / p t).
  { unfold kappa2. rewrite E1 in E2. apply (Rmult_eq_reg_l (p t)); [|exact Np].
    replace (p t * dq t) with (2 * ((p t * dq t - p t ^ 2 * Phi t + pdV U (phi t) * q t) / 2) + (p t)^2 * Phi t - pdV U (phi t) * q t) by field.
    rewrite <- E2. field. split; assumption. }
  split.
  - unfold curvature_pert. evar_last; [auto_derive; [repeat split; try exd; exact Np|reflexivity]|]. undd. toR.
    unfold T_dH, T_get_dH, T_d2phi, T_get_d2phi. fold (H t). rewrite X1, X2, EA. 
    change (sqrt (T_H2 K U te t (y t))) with (H t). field. repeat split; try assumption; lra.
  - evar_last; [auto_derive; [repeat split; try exd; try exact Np; apply Rmult_integral_contrapositive_currified; try exact Np; try lra|reflexivity]|]. undd. toR.
    unfold curvature_pert, Ts_damping, Ts_frequency2, Ts_shared, Ts_terms, T_sample; cbn [s_N s_H s_phi s_dphidt].
    unfold T_dH, T_get_dH, T_d2phi, T_get_d2phi. rewrite X1, X2, EA.
    change (sqrt (T_H2 K U te t (y t))) with (H t).
    assert (Nk' : kappa2 K k * (2 * H t ^ 2) + K * p t ^ 2 <> 0).
    { intros X. apply Nk. apply (Rmult_eq_reg_l (2 * H t^2)); [|apply Rmult_integral_contrapositive_currified; [lra|apply pow_nonzero; lra]]. rewrite Rmult_0_r, <- X. field. lra. }
    field. repeat split; try assumption; try lra.
Qed.
End T.

(** *** changing the clock from t to N *)
Section Clock.
Variables (Nf H Hd tau gT wT gN wN : R -> R) (a b n0 n1 : R).
Hypothesis CL : clock Nf a b tau n0 n1.
Hypothesis DN : forall t, a < t < b -> is_derive Nf t (H t) /\ 0 < H t.
Hypothesis DH : forall t, a < t < b -> is_derive H t (Hd t).
Hypothesis G : forall t, a < t < b -> 2 * gN (Nf t) = 2 * gT t / H t + Hd t / (H t)^2.
Hypothesis W : forall t, a < t < b -> wN (Nf t) = wT t / (H t)^2.

Lemma clock_osc f : oscillator gN wN f n0 n1 <-> oscillator gT wT (fun t => f (Nf t)) a b.
Proof.
  destruct CL as [C1 C2]. split; intros [f1 E].
  - exists (fun t => H t * f1 (Nf t)). intros t Ht. destruct (C2 t Ht) as [I _].
    destruct (DN t Ht) as [D P]. pose proof (DH t Ht) as D2. destruct (E (Nf t) I) as [E1 E2]. split.
    + evar_last; [apply (is_derive_comp f Nf t); [exact E1|exact D]|]. reflexivity.
    + assert (D3 : is_derive (fun s => f1 (Nf s)) t (H t * - (2 * gN (Nf t) * f1 (Nf t) + wN (Nf t) * f (Nf t))))
        by (apply (is_derive_comp f1 Nf t); [exact E2|exact D]).
      evar_last; [apply (is_derive_mult H (fun s => f1 (Nf s)) t); [exact D2|exact D3|intros; apply Rmult_comm]|].
      unfold plus, mult; simpl. rewrite (G t Ht), (W t Ht). field. lra.
  - assert (TD : forall n, n0 < n < n1 -> is_derive tau n (/ H (tau n))) by (apply (inverse_derive Nf H tau a b n0 n1); [exact DN|exact C1]).
    assert (Q1 : forall n, n0 < n < n1 -> is_derive f n (f1 (tau n) / H (tau n))).
    { intros n Hn. destruct (C1 n Hn) as [I _]. destruct (E (tau n) I) as [E1 _].
      apply (is_derive_ext_loc (fun m => f (Nf (tau m)))).
      - assert (L : locally n (fun m => n0 < m < n1)).
        { apply (locally_interval _ n n0 n1); try apply Hn. intros; split; assumption. }
        revert L. apply filter_imp. intros m Hm. f_equal. apply C1. exact Hm.
      - evar_last; [apply (is_derive_comp (fun s => f (Nf s)) tau n); [exact E1|apply TD, Hn]|].
        unfold scal; simpl; unfold mult; simpl. unfold Rdiv. ring. }
    exists (fun n => f1 (tau n) / H (tau n)). intros n Hn. split; [apply Q1, Hn|].
    destruct (C1 n Hn) as [I EN]. destruct (DN _ I) as [_ P]. destruct (E (tau n) I) as [_ E2].
    pose proof (TD n Hn) as T1. pose proof (DH _ I) as D2. 
    assert (A1 : is_derive (fun m => f1 (tau m)) n (/ H (tau n) * - (2 * gT (tau n) * f1 (tau n) + wT (tau n) * f (Nf (tau n)))))
      by (apply (is_derive_comp f1 tau n); [exact E2|exact T1]).
    assert (A2 : is_derive (fun m => H (tau m)) n (/ H (tau n) * Hd (tau n)))
      by (apply (is_derive_comp H tau n); [exact D2|exact T1]).
    evar_last; [apply is_derive_div; [exact A1|exact A2|lra]|].
    pose proof (G _ I) as GG. pose proof (W _ I) as WW. rewrite EN in *. rewrite WW.
    replace (2 * gN n * (f1 (tau n) / H (tau n))) with ((2 * gN n) * (f1 (tau n) / H (tau n))) by ring. rewrite GG. toR. field. lra.
Qed.
End Clock.

(** *** pointwise relation between the two sets of coefficients *)
Definition same_state (K : R) (s s' : sample) : Prop :=
  s_N s' = s_N s /\ s_H s' = s_H s /\ s_phi s' = s_phi s /\ s_dphidN s' = s_dphidt s / s_H s /\
  s_OmK s' = OmegaK_attr K (s_N s) (s_H s).

Lemma TN_scalar_coeffs K k U s s' : same_state K s s' -> 0 < s_H s -> s_dphidt s <> 0 ->
  kappa2 K k + K * (s_dphidt s)^2 / (2 * (s_H s)^2) <> 0 ->
  2 * Ns_damping K k U s' = 2 * Ts_damping K k U s / s_H s + T_get_dH (s_N s) (s_H s) (s_dphidt s) K / (s_H s)^2 /\
  Ns_frequency2 K k U s' = Ts_frequency2 K k U s / (s_H s)^2.
Proof.
  intros (E1 & E2 & E3 & E4 & E5) HP Np Nk.
  unfold Ns_damping, Ns_frequency2, Ns_damping2, Ns_xi, Ts_damping, Ts_frequency2, Ts_shared, Ts_terms, T_get_dH.
  rewrite E1, E2, E3, E4, E5, OmegaK_attr_eq, exp_2, exp_m2 by assumption.
  assert (PA : exp (s_N s) <> 0) by (apply Rgt_not_eq, exp_pos).
  assert (Nk' : kappa2 K k * (2 * s_H s ^ 2) + K * s_dphidt s ^ 2 <> 0).
  { intros X. apply Nk. apply (Rmult_eq_reg_l (2 * s_H s^2)); [|apply Rmult_integral_contrapositive_currified; [lra|apply pow_nonzero; lra]]. rewrite Rmult_0_r, <- X. field. lra. }
  split; field; repeat split; try assumption; lra.
Qed.
Lemma TN_tensor_coeffs K k s s' : same_state K s s' -> 0 < s_H s ->
  2 * Nt_damping K s' = 2 * Tt_damping s / s_H s + T_get_dH (s_N s) (s_H s) (s_dphidt s) K / (s_H s)^2 /\
  Nt_frequency2 K k s' = Tt_frequency2 K k s / (s_H s)^2.
Proof.
  intros (E1 & E2 & E3 & E4 & E5) HP. unfold Nt_damping, Nt_frequency2, Tt_damping, Tt_frequency2, T_get_dH.
  rewrite E1, E2, E4. split; field; lra.
Qed.

Section TN.
Variables (K k : R) (U : potfun) (tt te : bool) (y : R -> list R) (a b n0 n1 : R) (tau : R -> R).
Hypothesis B : T_background K U te y a b.
Hypothesis CL : clock (T_N te y) a b tau n0 n1.
Hypothesis NV : forall t, a < t < b -> pV U (T_phi te y t) <> 3 * K * exp (-2 * T_N te y t).
Notation yN := (fun n => state_T2N K U tt te (tau n) (y (tau n))).
Notation p := (T_dphi te y). Notation H := (T_Hub K U te y). Notation Nf := (T_N te y).

Lemma T2N_same t : a < t < b -> same_state K (T_sample K U te y t) (N_sample K U tt te yN (Nf t)).
Proof.
  intros Ht. destruct CL as [_ C2]. destruct (C2 t Ht) as [_ ET].
  destruct B as [_ Q]. destruct (Q t Ht) as [HP _].
  destruct (T2N_obs K U tt te t (y t) HP (NV t Ht)) as [EH _]. cbv zeta in EH.
  unfold same_state, N_sample, T_sample; cbn [s_N s_H s_phi s_dphidt s_dphidN s_OmK].
  assert (EHub : N_Hub K U tt te yN (Nf t) = H t).
  { unfold N_Hub, T_Hub. rewrite ET. unfold T_N. rewrite EH. reflexivity. }
  split; [reflexivity|]. split; [exact EHub|]. split.
  { unfold N_phi. rewrite ET, var_T2N_phi. reflexivity. }
  split. { unfold N_dphi. rewrite ET, var_T2N_dphi. reflexivity. }
  rewrite EHub. reflexivity.
Qed.
Lemma MS_TN_scalar f :
  (forall t, a < t < b -> p t <> 0 /\ kappa2 K k + K * (p t)^2 / (2 * (H t)^2) <> 0) ->
  (oscillator (fun n => Ns_damping K k U (N_sample K U tt te yN n)) (fun n => Ns_frequency2 K k U (N_sample K U tt te yN n)) f n0 n1
   <-> oscillator (fun t => Ts_damping K k U (T_sample K U te y t)) (fun t => Ts_frequency2 K k U (T_sample K U te y t))
                  (fun t => f (Nf t)) a b).
Proof.
  intros NZ. apply (clock_osc Nf H (T_dH K U te y) tau _ _ _ _ a b n0 n1 CL).
  - intros t Ht. split; [apply (T_comps K U te y a b B t Ht)|apply (T_pos K U te y a b B t Ht)].
  - intros t Ht. apply (T_H_derive K U te y a b B t Ht).
  - intros t Ht. apply (TN_scalar_coeffs K k U _ _ (T2N_same t Ht)); [apply (T_pos K U te y a b B t Ht)|apply NZ, Ht|apply NZ, Ht].
  - intros t Ht. apply (TN_scalar_coeffs K k U _ _ (T2N_same t Ht)); [apply (T_pos K U te y a b B t Ht)|apply NZ, Ht|apply NZ, Ht].
Qed.
Lemma MS_TN_tensor f :
  (oscillator (fun n => Nt_damping K (N_sample K U tt te yN n)) (fun n => Nt_frequency2 K k (N_sample K U tt te yN n)) f n0 n1
   <-> oscillator (fun t => Tt_damping (T_sample K U te y t)) (fun t => Tt_frequency2 K k (T_sample K U te y t))
                  (fun t => f (Nf t)) a b).
Proof.
  apply (clock_osc Nf H (T_dH K U te y) tau _ _ _ _ a b n0 n1 CL).
  - intros t Ht. split; [apply (T_comps K U te y a b B t Ht)|apply (T_pos K U te y a b B t Ht)].
  - intros t Ht. apply (T_H_derive K U te y a b B t Ht).
  - intros t Ht. apply (TN_tensor_coeffs K k _ _ (T2N_same t Ht)). apply (T_pos K U te y a b B t Ht).
  - intros t Ht. apply (TN_tensor_coeffs K k _ _ (T2N_same t Ht)). apply (T_pos K U te y a b B t Ht).
Qed.
End TN.

(** *** canonical form of the damping *)
Section Canonical.
Variables (K k : R) (U : potfun) (te : bool) (y : R -> list R) (a b : R).
Hypothesis B : T_background K U te y a b.
Notation phi := (T_phi te y). Notation p := (T_dphi te y). Notation Nf := (T_N te y). Notation H := (T_Hub K U te y).

Lemma zvar_derive t : a < t < b -> p t <> 0 ->
  is_derive (zvar K U te y) t (zvar K U te y t * (H t + T_d2phi K U te y t / p t - T_dH K U te y t / H t)).
Proof.
  intros Ht Np. destruct (T_comps K U te y a b B t Ht) as (_ & Dp & DN & _).
  destruct (T_pos K U te y a b B t Ht) as [Hp _]. pose proof (T_H_derive K U te y a b B t Ht) as DH.
  unfold zvar. evar_last; [auto_derive; [repeat split; try exd; lra|reflexivity]|]. undd. toR. field. lra.
Qed.
Lemma Z2_damping t : a < t < b -> p t <> 0 -> kappa2 K k <> 0 -> kappa2 K k + K * (p t)^2 / (2 * (H t)^2) <> 0 ->
  is_derive (fun s => exp (Nf s) * Z2var K k U te y s) t
    (2 * Ts_damping K k U (T_sample K U te y t) * (exp (Nf t) * Z2var K k U te y t)).
Proof.
  intros Ht Np N0 Nk. destruct (T_comps K U te y a b B t Ht) as (_ & Dp & DN & _).
  destruct (T_pos K U te y a b B t Ht) as [Hp _]. pose proof (T_H_derive K U te y a b B t Ht) as DH.
  pose proof (zvar_derive t Ht Np) as Dz.
  unfold Z2var. evar_last.
  { auto_derive; [|reflexivity]. repeat split; try exd; try exact Nk.
    rewrite Rmult_1_r. apply Rmult_integral_contrapositive_currified; [lra|]. apply Rmult_integral_contrapositive_currified; lra. }
  undd. toR. unfold T_dH, T_get_dH, T_d2phi, T_get_d2phi. rewrite exp_m2.
  change (sqrt (T_H2 K U te t (y t))) with (H t).
  unfold Ts_damping, Ts_shared, Ts_terms, T_sample; cbn [s_N s_H s_phi s_dphidt]. rewrite exp_m2.
  assert (PA : exp (Nf t) <> 0) by (apply Rgt_not_eq, exp_pos).
  assert (Nk' : kappa2 K k * (2 * H t ^ 2) + K * p t ^ 2 <> 0).
  { intros X. apply Nk. apply (Rmult_eq_reg_l (2 * H t^2)); [|apply Rmult_integral_contrapositive_currified; [lra|apply pow_nonzero; lra]]. rewrite Rmult_0_r, <- X. field. lra. }
  field. repeat split; try assumption; lra.
Qed.
Lemma flat_MS t : K = 0 -> k <> 0 -> a < t < b -> p t <> 0 ->
  2 * Ts_damping K k U (T_sample K U te y t) = H t + 2 * (H t + T_d2phi K U te y t / p t - T_dH K U te y t / H t) /\
  Ts_frequency2 K k U (T_sample K U te y t) = k^2 / (exp (Nf t))^2.
Proof.
  intros K0 k0 Ht Np. destruct (T_pos K U te y a b B t Ht) as [Hp _].
  unfold T_dH, T_get_dH, T_d2phi, T_get_d2phi. change (sqrt (T_H2 K U te t (y t))) with (H t).
  unfold Ts_damping, Ts_frequency2, Ts_shared, Ts_terms, kappa2, T_sample; cbn [s_N s_H s_phi s_dphidt]. rewrite exp_m2.
  assert (PA : exp (Nf t) <> 0) by (apply Rgt_not_eq, exp_pos).
  assert (X : k^2 <> 0) by (apply pow_nonzero; exact k0).
  assert (EH : forall r, K = 0 -> K * r = 0) by (intros r ->; ring).
  generalize dependent (H t). intros h Hp. rewrite K0.
  split; field; repeat split; try assumption; try lra.
Qed.
End Canonical.

(** *** two solutions have a conserved weighted Wronskian *)
Lemma conserved_wronskian (g w Z f h : R -> R) a b :
  (forall t, a < t < b -> is_derive Z t (2 * g t * Z t)) -> oscillator g w f a b -> oscillator g w h a b ->
  forall t1 t2, a < t1 < b -> a < t2 < b ->
  Z t1 * (f t1 * Derive h t1 - h t1 * Derive f t1) = Z t2 * (f t2 * Derive h t2 - h t2 * Derive f t2).
Proof.
  intros DZ [f1 F] [h1 G].
  assert (EF : forall t, a < t < b -> Derive f t = f1 t) by (intros t Ht; apply is_derive_unique, F, Ht).
  assert (EG : forall t, a < t < b -> Derive h t = h1 t) by (intros t Ht; apply is_derive_unique, G, Ht).
  assert (D : forall t, a < t < b -> is_derive (fun s => Z s * (f s * h1 s - h s * f1 s)) t 0).
  { intros t Ht. destruct (F t Ht) as [A1 A2]. destruct (G t Ht) as [B1 B2]. pose proof (DZ t Ht) as Dz.
    evar_last; [auto_derive; [repeat split; try exd|reflexivity]|]. undd. toR. ring. }
  assert (Q : forall s1 s2, a < s1 < b -> a < s2 < b -> s1 < s2 ->
     Z s1 * (f s1 * h1 s1 - h s1 * f1 s1) = Z s2 * (f s2 * h1 s2 - h s2 * f1 s2)).
  { intros s1 s2 H1 H2 L.
    destruct (MVT_gen (fun s => Z s * (f s * h1 s - h s * f1 s)) s1 s2 (fun _ => 0)) as (c & _ & E).
    - intros x Hx. rewrite Rmin_left, Rmax_right in Hx by lra. apply D. lra.
    - intros x Hx. rewrite Rmin_left, Rmax_right in Hx by lra. apply continuity_pt_filterlim.
      apply (ex_derive_continuous (fun s => Z s * (f s * h1 s - h s * f1 s))). eexists. apply D. lra.
    - lra. }
  intros t1 t2 H1 H2. rewrite !EF, !EG by assumption. destruct (Rtotal_order t1 t2) as [L|[->|L]].
  - apply Q; assumption.
  - reflexivity.
  - symmetry. apply Q; assumption.
Qed.
