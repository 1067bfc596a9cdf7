(** C112: the vacuum determines the mode, and both time variables give the same power. *)
From Coq Require Import Reals List String Lra Lia.
From Coquelicot Require Import Coquelicot.
From Verif Require Import Base Model.Potentials Model.Equations Model.Background Model.Perturbations Model.Oscode Spec.BackgroundSpec Spec.PerturbationSpec
  Proofs.BackgroundT Proofs.BackgroundN Proofs.PertT Proofs.Unique Proofs.BackgroundEx Properties.BackgroundProps Properties.PertProps Properties.ModeProps Properties.UniqueProps.
Import ListNotations.
Open Scope R_scope.
Open Scope string_scope.

(** linear second-order equations with continuous coefficients have unique solutions *)
Lemma osc_unique (g w f h : R -> R) a b x0 : oscillator g w f a b -> oscillator g w h a b ->
  (forall x, a < x < b -> continuous g x /\ continuous w x) -> a < x0 < b -> f x0 = h x0 -> Derive f x0 = Derive h x0 ->
  forall x, a < x < b -> f x = h x.
Proof.
  intros (f1 & F) (h1 & H) CO H0 E0 E1 x Hx.
  set (c := Rmin x0 x). set (d := Rmax x0 x). destruct (between x0 x) as [I0 I1]. fold c d in I0, I1.
  assert (IN : forall s, c <= s <= d -> a < s < b) by (intros s; unfold c, d, Rmin, Rmax; destruct (Rle_dec x0 x); lra).
  assert (L : c <= d) by lra.
  assert (E1' : f1 x0 = h1 x0) by (rewrite <- (is_derive_unique f x0 _ (proj1 (F x0 H0))), <- (is_derive_unique h x0 _ (proj1 (H x0 H0))); exact E1).
  destruct (bounded g c d L) as (G & Gp & BG); [intros s Hs; apply (CO s (IN s Hs))|].
  destruct (bounded w c d L) as (W & Wp & BW); [intros s Hs; apply (CO s (IN s Hs))|].
  set (C := 1 + 2 * G + W).
  assert (DD := stays_zero3 (fun s => f s - h s) (fun s => f1 s - h1 s) (fun _ => 0)
     (fun s => f1 s - h1 s) (fun s => - (2 * g s * f1 s + w s * f s) - - (2 * g s * h1 s + w s * h s)) (fun _ => 0) c d C x0 I0).
  assert (D1 : forall s, c <= s <= d -> is_derive (fun s => f s - h s) s (f1 s - h1 s) /\
     is_derive (fun s => f1 s - h1 s) s (- (2 * g s * f1 s + w s * f s) - - (2 * g s * h1 s + w s * h s)) /\ is_derive (fun _ : R => 0) s 0).
  { intros s Hs. destruct (F s (IN s Hs)) as [A1 A2]. destruct (H s (IN s Hs)) as [B1 B2].
    split; [apply is_derive_sub; assumption|]. split; [apply is_derive_sub; assumption|exact (@is_derive_const R_AbsRing R_NormedModule 0 s)]. }
  specialize (DD D1 ltac:(unfold C; lra)). assert (D2 : f x - h x = 0 /\ f1 x - h1 x = 0).
  { assert (X := fun BND => DD BND x I1). cbv beta in X. rewrite E0, E1' in X.
    assert (BND : forall s, c <= s <= d -> let n := Rabs (f s - h s) + Rabs (f1 s - h1 s) + Rabs 0 in
      Rabs (f1 s - h1 s) <= C * n /\ Rabs (- (2 * g s * f1 s + w s * f s) - - (2 * g s * h1 s + w s * h s)) <= C * n /\ Rabs 0 <= C * n).
    { intros s Hs. cbn zeta. rewrite Rabs_R0. set (p := f s - h s). set (q := f1 s - h1 s).
      pose proof (Rabs_pos p). pose proof (Rabs_pos q).
      assert (NN : 0 <= Rabs p + Rabs q + 0) by lra. assert (CP : 0 <= C) by (unfold C; lra).
      split; [|split; [|apply Rmult_le_pos; assumption]].
      - apply Rle_trans with (1 * (Rabs p + Rabs q + 0)); [lra|]. apply Rmult_le_compat_r; [exact NN|unfold C; lra].
      - replace (- (2 * g s * f1 s + w s * f s) - - (2 * g s * h1 s + w s * h s)) with (- w s * p + - (2 * g s) * q + 0 * 0) by (unfold p, q; ring).
        replace (Rabs p + Rabs q + 0) with (Rabs p + Rabs q + Rabs 0) by (rewrite Rabs_R0; reflexivity).
        apply Rle_trans with ((W + 2 * G + 0) * (Rabs p + Rabs q + Rabs 0)).
        + apply bd_lin3; [apply bd_opp; exact (BW s Hs)|apply bd_opp, bd_mult; [unfold bd; rewrite Rabs_right; lra|exact (BG s Hs)]|unfold bd; rewrite Rabs_R0; lra].
        + rewrite Rabs_R0. apply Rmult_le_compat_r; [exact NN|unfold C; lra]. }
    specialize (X BND). replace (0 ^ 2) with 0 in X by ring.
    assert (Z0 : ((h x0 - h x0) ^ 2 + (h1 x0 - h1 x0) ^ 2 + 0) * exp (6 * C * Rabs (x - x0)) = 0) by ring. rewrite Z0 in X.
    pose proof (pow2_ge_0 (f x - h x)). pose proof (pow2_ge_0 (f1 x - h1 x)).
    assert (S0 : forall r, r ^ 2 = 0 -> r = 0) by (intros r Hr; apply Rsqr_0_uniq; rewrite Rsqr_pow2; exact Hr).
    split; apply S0; lra. }
  lra.
Qed.

(** the coefficients are regular along the background: nothing is asked for tensor modes; for scalar
    modes the inflaton moves and kappa^2 + K phi'^2/(2 H^2) does not vanish *)
Definition regular_T (tensor : bool) K k U te y a b : Prop := tensor = false -> forall t, a < t < b ->
  T_dphi te y t <> 0 /\ kappa2 K k + K * (T_dphi te y t)^2 / (2 * (T_Hub K U te y t)^2) <> 0.
Definition regular_N (tensor : bool) K k tt te y a b : Prop := tensor = false -> forall n, a < n < b ->
  N_dphi tt te y n <> 0 /\ kappa2 K k + K * ((N_dphi tt te y n)^2 / 2) <> 0.
Definition T_mode tensor K k U te y := complex_mode (fun t => damp true tensor K k U (T_sample K U te y t)) (fun t => freq2 true tensor K k U (T_sample K U te y t)).
Definition N_mode tensor K k U tt te y := complex_mode (fun n => damp false tensor K k U (N_sample K U tt te y n)) (fun n => freq2 false tensor K k U (N_sample K U tt te y n)).

Lemma ex_cont (f : R -> R) x : ex_derive f x -> continuous f x.
Proof. intros H. apply (ex_derive_continuous f). exact H. Qed.
Lemma T_coef_cont tensor K k U te y a b : T_background K U te y a b -> regular_T tensor K k U te y a b ->
  forall t, a < t < b -> continuous (fun t => damp true tensor K k U (T_sample K U te y t)) t /\ continuous (fun t => freq2 true tensor K k U (T_sample K U te y t)) t.
Proof.
  intros B RG t Ht. destruct (T_comps K U te y a b B t Ht) as (D1 & D2 & D3 & _). pose proof (T_H_derive K U te y a b B t Ht) as D4.
  destruct (T_smooth K U te y a b B t Ht) as (_ & S2 & _). destruct (T_pos K U te y a b B t Ht) as (HP & _).
  assert (X1 : ex_derive (T_phi te y) t) by (eexists; exact D1). assert (X2 : ex_derive (T_dphi te y) t) by (eexists; exact D2).
  assert (X3 : ex_derive (T_N te y) t) by (eexists; exact D3). assert (X4 : ex_derive (T_Hub K U te y) t) by (eexists; exact D4).
  assert (X5 : ex_derive (pdV U) (T_phi te y t)) by (eexists; exact S2).
  destruct tensor; split; apply ex_cont.
  - unfold damp, Tt_damping, T_sample. cbn [s_H]. auto_derive. exact X4.
  - unfold freq2, Tt_frequency2, T_sample. cbn [s_N]. auto_derive. exact X3.
  - destruct (RG eq_refl t Ht) as [P0 Q0]. unfold damp, Ts_damping, Ts_shared, Ts_terms, T_sample. cbn [s_N s_H s_phi s_dphidt].
    auto_derive. repeat split; try assumption; try (apply Rgt_not_eq; assert (0 < T_Hub K U te y t ^ 2) by (apply pow_lt; exact HP); simpl in *; lra).
    all: try (intros E; apply Q0; rewrite <- E; simpl; field; lra). all: try (apply Rmult_integral_contrapositive_currified; lra).
  - destruct (RG eq_refl t Ht) as [P0 Q0]. unfold freq2, Ts_frequency2, Ts_shared, Ts_terms, T_sample. cbn [s_N s_H s_phi s_dphidt].
    auto_derive. repeat split; try assumption; try (apply Rgt_not_eq; assert (0 < T_Hub K U te y t ^ 2) by (apply pow_lt; exact HP); simpl in *; lra).
    all: try (intros E; apply Q0; rewrite <- E; simpl; field; lra). all: try (apply Rmult_integral_contrapositive_currified; lra).
Qed.
Lemma N_coef_cont tensor K k U tt te y a b : N_background K U tt te y a b -> regular_N tensor K k tt te y a b ->
  forall t, a < t < b -> continuous (fun t => damp false tensor K k U (N_sample K U tt te y t)) t /\ continuous (fun t => freq2 false tensor K k U (N_sample K U tt te y t)) t.
Proof.
  intros B RG t Ht. destruct (N_comps K U tt te y a b B t Ht) as (D1 & D2 & _). pose proof (N_H_derive K U tt te y a b B t Ht) as D4.
  destruct (N_smooth K U tt te y a b B t Ht) as (_ & S2 & _). destruct (N_pos K U tt te y a b B t Ht) as (HP & _).
  assert (X1 : ex_derive (N_phi tt te y) t) by (eexists; exact D1). assert (X2 : ex_derive (N_dphi tt te y) t) by (eexists; exact D2).
  assert (X4 : ex_derive (N_Hub K U tt te y) t) by (eexists; exact D4).
  assert (X5 : ex_derive (pdV U) (N_phi tt te y t)) by (eexists; exact S2).
  assert (H2 : N_Hub K U tt te y t ^ 2 <> 0) by (apply pow_nonzero; lra). assert (E2 : 0 < exp (2 * t)) by apply exp_pos.
  destruct tensor; split; apply ex_cont.
  - unfold damp, Nt_damping, N_sample. cbn [s_N s_H s_dphidN]. auto_derive. repeat split; try assumption; try (simpl in H2; exact H2).
  - unfold freq2, Nt_frequency2, N_sample. cbn [s_N s_H]. auto_derive. repeat split; try assumption; try (simpl in H2; exact H2).
  - destruct (RG eq_refl t Ht) as [P0 Q0]. unfold damp, Ns_damping, Ns_damping2, Ns_xi, N_sample, OmegaK_attr. cbn [s_N s_H s_phi s_dphidN s_OmK].
    auto_derive. repeat split; try assumption.
    all: try (intros E; apply Q0; rewrite <- E; simpl; field; lra). all: try (apply Rmult_integral_contrapositive_currified; [simpl in H2; exact H2|exact P0]).
  - destruct (RG eq_refl t Ht) as [P0 Q0]. unfold freq2, Ns_frequency2, Ns_damping2, Ns_xi, N_sample, OmegaK_attr. cbn [s_N s_H s_phi s_dphidN s_OmK].
    auto_derive. repeat split; try assumption.
    all: try (intros E; apply Q0; rewrite <- E; simpl; field; lra). all: try (apply Rmult_integral_contrapositive_currified; [first [simpl in H2; exact H2|lra]|first [exact P0|simpl in H2; exact H2] ]).
Qed.

Lemma mode_unique (g w : R -> R) a b (u v : R -> C) vac x0 : (forall x, a < x < b -> continuous g x /\ continuous w x) -> a < x0 < b ->
  complex_mode g w u a b -> complex_mode g w v a b -> starts_from vac u x0 -> starts_from vac v x0 -> forall x, a < x < b -> u x = v x.
Proof.
  intros CO H0 [U1 U2] [V1 V2] (A0 & A1 & A2) (B0 & B1 & B2) x Hx. apply injective_projections.
  - apply (osc_unique g w (fun s => fst (u s)) (fun s => fst (v s)) a b x0); try assumption; [cbv beta; rewrite A0, B0; reflexivity|].
    transitivity (fst (snd vac)); [exact (is_derive_unique _ _ _ A1)|symmetry; exact (is_derive_unique _ _ _ B1)].
  - apply (osc_unique g w (fun s => snd (u s)) (fun s => snd (v s)) a b x0); try assumption; [cbv beta; rewrite A0, B0; reflexivity|].
    transitivity (snd (snd vac)); [exact (is_derive_unique _ _ _ A2)|symmetry; exact (is_derive_unique _ _ _ B2)].
Qed.
(** a mode is determined by its value and derivative at one moment *)
Theorem C112_unique_time : forall tensor K k U te y a b u v vac t0, T_background K U te y a b -> regular_T tensor K k U te y a b -> a < t0 < b ->
  T_mode tensor K k U te y u a b -> T_mode tensor K k U te y v a b -> starts_from vac u t0 -> starts_from vac v t0 ->
  forall t, a < t < b -> u t = v t.
Proof. intros tensor K k U te y a b u v vac t0 B RG H0 MU MV SU SV. exact (mode_unique _ _ a b u v vac t0 (T_coef_cont tensor K k U te y a b B RG) H0 MU MV SU SV). Qed.
Theorem C112_unique_efolds : forall tensor K k U tt te y a b u v vac n0, N_background K U tt te y a b -> regular_N tensor K k tt te y a b -> a < n0 < b ->
  N_mode tensor K k U tt te y u a b -> N_mode tensor K k U tt te y v a b -> starts_from vac u n0 -> starts_from vac v n0 ->
  forall n, a < n < b -> u n = v n.
Proof. intros tensor K k U tt te y a b u v vac n0 B RG H0 MU MV SU SV. exact (mode_unique _ _ a b u v vac n0 (N_coef_cont tensor K k U tt te y a b B RG) H0 MU MV SU SV). Qed.

(** ... namely as the superposition of the two solutions that start from (1,0) and (0,1): the exact
    integrator propagates linearly, which is what C78 and C89 ask of pyoscode *)
Lemma osc_lin (g w f h : R -> R) a b (p q : R) : oscillator g w f a b -> oscillator g w h a b -> oscillator g w (fun x => p * f x + q * h x) a b.
Proof.
  intros (f1 & F) (h1 & H). exists (fun x => p * f1 x + q * h1 x). intros x Hx. destruct (F x Hx) as [A1 A2]. destruct (H x Hx) as [B1 B2].
  split; (eapply is_derive_eq; [apply (@is_derive_plus R_AbsRing R_NormedModule); apply is_derive_scal; eassumption|]); unfold plus; simpl; ring.
Qed.
Lemma superpose (g w f h : R -> R) a b (u : R -> C) (vac : C * C) x0 : (forall x, a < x < b -> continuous g x /\ continuous w x) -> a < x0 < b ->
  complex_mode g w u a b -> starts_from vac u x0 -> oscillator g w f a b -> oscillator g w h a b ->
  f x0 = 1 -> is_derive f x0 0 -> h x0 = 0 -> is_derive h x0 1 ->
  forall x, a < x < b -> u x = (RtoC (f x) * fst vac + RtoC (h x) * snd vac)%C.
Proof.
  intros CO H0 MU SU OF OH F0 F1 H00 H1 x Hx. destruct vac as [[p q] [r s]].
  assert (D : forall c d, is_derive (fun x => c * f x + d * h x) x0 d).
  { intros c d. eapply is_derive_eq; [apply (@is_derive_plus R_AbsRing R_NormedModule); apply is_derive_scal; eassumption|]. unfold plus; simpl; ring. }
  rewrite (mode_unique g w a b u (fun x => (p * f x + r * h x, q * f x + s * h x)) ((p, q), (r, s)) x0 CO H0 MU); try assumption.
  - unfold Cplus, Cmult, RtoC. cbn [fst snd]. f_equal; ring.
  - split; cbn [fst snd]; apply osc_lin; assumption.
  - split; cbn [fst snd]; [rewrite F0, H00; f_equal; ring|split; apply D].
Qed.
Theorem C112_superposition_time : forall tensor K k U te y a b u vac f h t0, T_background K U te y a b -> regular_T tensor K k U te y a b -> a < t0 < b ->
  T_mode tensor K k U te y u a b -> starts_from vac u t0 ->
  let eq := oscillator (fun t => damp true tensor K k U (T_sample K U te y t)) (fun t => freq2 true tensor K k U (T_sample K U te y t)) in
  eq f a b -> eq h a b -> f t0 = 1 -> is_derive f t0 0 -> h t0 = 0 -> is_derive h t0 1 ->
  forall t, a < t < b -> u t = (RtoC (f t) * fst vac + RtoC (h t) * snd vac)%C.
Proof. intros tensor K k U te y a b u vac f h t0 B RG H0 MU SU eq. exact (superpose _ _ f h a b u vac t0 (T_coef_cont tensor K k U te y a b B RG) H0 MU SU). Qed.
Theorem C112_superposition_efolds : forall tensor K k U tt te y a b u vac f h n0, N_background K U tt te y a b -> regular_N tensor K k tt te y a b -> a < n0 < b ->
  N_mode tensor K k U tt te y u a b -> starts_from vac u n0 ->
  let eq := oscillator (fun n => damp false tensor K k U (N_sample K U tt te y n)) (fun n => freq2 false tensor K k U (N_sample K U tt te y n)) in
  eq f a b -> eq h a b -> f n0 = 1 -> is_derive f n0 0 -> h n0 = 0 -> is_derive h n0 1 ->
  forall n, a < n < b -> u n = (RtoC (f n) * fst vac + RtoC (h n) * snd vac)%C.
Proof. intros tensor K k U tt te y a b u vac f h n0 B RG H0 MU SU eq. exact (superpose _ _ f h a b u vac n0 (N_coef_cont tensor K k U tt te y a b B RG) H0 MU SU). Qed.

(** ** the two time variables *)
Lemma osc_ext (g w g' w' f : R -> R) a b : (forall x, a < x < b -> g x = g' x /\ w x = w' x) -> oscillator g w f a b -> oscillator g' w' f a b.
Proof.
  intros E (f1 & F). exists f1. intros x Hx. destruct (F x Hx) as [A1 A2]. split; [exact A1|]. destruct (E x Hx) as [<- <-]. exact A2.
Qed.
(** the vacua whose initial data agree between the time variables: all for tensors, all but the
    Hamiltonian-diagonalisation vacuum in curved space for scalars (C55) *)
Definition common_vacuum (tensor : bool) (K : R) (vac : string) : Prop := vac = "HD" -> tensor = true \/ K = 0.
(** Independent runs in cosmic time and in e-folds that describe the same universe at one moment,
    with a mode started from the same vacuum at that moment, give the same mode, and so the same
    power, at every moment *)
Theorem C112_same_mode : forall tensor K k U tt te y z a b n0 n1 tau t0 vac us un u w,
  T_background K U te y a b -> (forall t, a < t < b -> pV U (T_phi te y t) <> 3 * K * exp (-2 * T_N te y t)) -> regular_T tensor K k U te y a b ->
  clock (T_N te y) a b tau n0 n1 -> N_background K U tt te z n0 n1 ->
  a < t0 < b -> z (T_N te y t0) = state_T2N K U tt te t0 (y t0) ->
  common_vacuum tensor K vac -> T_dphi te y t0 <> 0 ->
  vacuum_state true tensor K k U vac (T_sample K U te y t0) us -> vacuum_state false tensor K k U vac (N_sample K U tt te z (T_N te y t0)) un ->
  T_mode tensor K k U te y u a b -> starts_from us u t0 ->
  N_mode tensor K k U tt te z w n0 n1 -> starts_from un w (T_N te y t0) ->
  forall t, a < t < b -> w (T_N te y t) = u t.
Proof.
  intros tensor K k U tt te y z a b n0 n1 tau t0 vac us un u w By HV RG CL Bz H0 E0 CV P0 VT VN MU SU MW SW t Ht.
  assert (INN : forall t, a < t < b -> n0 < T_N te y t < n1) by (intros s Hs; apply (proj2 CL s Hs)).
  set (yN := fun n => state_T2N K U tt te (tau n) (y (tau n))).
  assert (EZ : forall n, n0 < n < n1 -> z n = yN n).
  { intros n Hn. destruct (proj1 CL n Hn) as [T1 T2].
    pose proof (C110_both K U tt te y z a b n0 n1 t0 By HV Bz H0 (INN t0 H0) E0 (tau n) T1) as X. rewrite T2 in X. exact (X Hn). }
  assert (ES : forall n, n0 < n < n1 -> N_sample K U tt te z n = N_sample K U tt te yN n).
  { intros n Hn. unfold N_sample, N_Hub, N_phi, N_dphi. rewrite (EZ n Hn). reflexivity. }
  destruct (T_pos K U te y a b By t0 H0) as [HP _].
  assert (MA : matching K (T_sample K U te y t0) (N_sample K U tt te z (T_N te y t0))).
  { rewrite (ES _ (INN t0 H0)). exact (T2N_same K U tt te y a b n0 n1 tau By CL HV t0 H0). }
  assert (AG : agree (T_Hub K U te y t0) us un).
  { pose proof (C55_vacua_agree K k U _ _ MA HP) as (A1 & A2 & A3 & A4 & A5 & A6). unfold vacuum_state in VT, VN.
    destruct tensor; destruct VT as [[-> ->]|[[-> ->]|[-> ->]]]; destruct VN as [[V ->]|[[V ->]|[V ->]]]; try discriminate V; try assumption; try (apply A1; exact P0).
    destruct (CV eq_refl) as [X|X]; [discriminate X|]. exact (A3 X P0). }
  assert (MW' : T_mode tensor K k U te y (fun t => w (T_N te y t)) a b).
  { assert (EQ : forall f, oscillator (fun n => damp false tensor K k U (N_sample K U tt te z n)) (fun n => freq2 false tensor K k U (N_sample K U tt te z n)) f n0 n1 ->
        oscillator (fun t => damp true tensor K k U (T_sample K U te y t)) (fun t => freq2 true tensor K k U (T_sample K U te y t)) (fun t => f (T_N te y t)) a b).
    { intros f O. apply (osc_ext _ _ (fun n => damp false tensor K k U (N_sample K U tt te yN n)) (fun n => freq2 false tensor K k U (N_sample K U tt te yN n))) in O;
        [|intros x Hx; rewrite (ES x Hx); split; reflexivity].
      destruct tensor; cbn [damp freq2] in *.
      - apply (C52_tensor_equivalent K k U tt te y a b n0 n1 tau f By CL HV). exact O.
      - refine (proj1 (C52_scalar_equivalent K k U tt te y a b n0 n1 tau f By CL _) O). intros s Hs. split; [exact (HV s Hs)|]. exact (RG eq_refl s Hs). }
    destruct MW as [W1 W2]. split; [exact (EQ _ W1)|exact (EQ _ W2)]. }
  destruct AG as [AG1 AG2]. destruct SW as (S0 & S1 & S2).
  assert (DN := proj1 (proj2 (proj2 (T_comps K U te y a b By t0 H0)))).
  symmetry. apply (C112_unique_time tensor K k U te y a b u (fun t => w (T_N te y t)) us t0 By RG H0 MU MW' SU); [|exact Ht].
  split; [rewrite S0; symmetry; exact AG1|]. rewrite AG2. split.
  - eapply is_derive_eq; [exact (is_derive_comp (fun n => fst (w n)) (T_N te y) t0 _ _ S1 DN)|]. unfold scal; simpl; unfold mult; simpl. ring.
  - eapply is_derive_eq; [exact (is_derive_comp (fun n => snd (w n)) (T_N te y) t0 _ _ S2 DN)|]. unfold scal; simpl; unfold mult; simpl. ring.
Qed.

(** the closed universe a = t, H = 1/t with gravitational waves of wavenumber 2, in closed form *)
Definition ex_c (t : R) := 2 * cos (3 * (ln t - ln 2)) / t.
Definition ex_s (t : R) := 2 * sin (3 * (ln t - ln 2)) / t.
Lemma ex_c_derive t : 0 < t -> is_derive ex_c t (- (ex_c t + 3 * ex_s t) / t).
Proof. intros H. unfold ex_c, ex_s. auto_derive; [split; [exact H|split; [lra|exact I]]|]. unfold Rminus. field. lra. Qed.
Lemma ex_s_derive t : 0 < t -> is_derive ex_s t ((3 * ex_c t - ex_s t) / t).
Proof. intros H. unfold ex_c, ex_s. auto_derive; [split; [exact H|split; [lra|exact I]]|]. unfold Rminus. field. lra. Qed.
Definition ex_osc := oscillator (fun t => damp true true 1 2 (Vexp 4) (T_sample 1 (Vexp 4) true y_closed t)) (fun t => freq2 true true 1 2 (Vexp 4) (T_sample 1 (Vexp 4) true y_closed t)).
Lemma ex_coef t : 0 < t -> damp true true 1 2 (Vexp 4) (T_sample 1 (Vexp 4) true y_closed t) = 3 / t / 2 /\ freq2 true true 1 2 (Vexp 4) (T_sample 1 (Vexp 4) true y_closed t) = 10 / t^2.
Proof.
  intros H. unfold damp, freq2, Tt_damping, Tt_frequency2, T_sample. cbn [s_H s_N]. rewrite closed_Hub by exact H. split; [unfold Rdiv; reflexivity|].
  change (T_N true y_closed t) with (ln t). replace (-2 * ln t) with (- (2 * ln t)) by ring. rewrite exp_m2ln by exact H. field. lra.
Qed.
Lemma ex_c_osc : ex_osc ex_c 1 3.
Proof.
  exists (fun t => - (ex_c t + 3 * ex_s t) / t). intros t Ht. split; [apply ex_c_derive; lra|]. destruct (ex_coef t ltac:(lra)) as [-> ->].
  pose proof (ex_c_derive t ltac:(lra)) as D1. pose proof (ex_s_derive t ltac:(lra)) as D2.
  evar_last; [auto_derive; [repeat split; try (eexists; eassumption); lra|reflexivity]|].
  assert (E1 : Derive (fun x => ex_c x) t = - (ex_c t + 3 * ex_s t) / t) by exact (is_derive_unique (fun x => ex_c x) t _ D1).
  assert (E2 : Derive (fun x => ex_s x) t = (3 * ex_c t - ex_s t) / t) by exact (is_derive_unique (fun x => ex_s x) t _ D2).
  rewrite E1, E2. field. lra.
Qed.
Lemma ex_s_osc : ex_osc ex_s 1 3.
Proof.
  exists (fun t => (3 * ex_c t - ex_s t) / t). intros t Ht. split; [apply ex_s_derive; lra|]. destruct (ex_coef t ltac:(lra)) as [-> ->].
  pose proof (ex_c_derive t ltac:(lra)) as D1. pose proof (ex_s_derive t ltac:(lra)) as D2.
  evar_last; [auto_derive; [repeat split; try (eexists; eassumption); lra|reflexivity]|].
  assert (E1 : Derive (fun x => ex_c x) t = - (ex_c t + 3 * ex_s t) / t) by exact (is_derive_unique (fun x => ex_c x) t _ D1).
  assert (E2 : Derive (fun x => ex_s x) t = (3 * ex_c t - ex_s t) / t) by exact (is_derive_unique (fun x => ex_s x) t _ D2).
  rewrite E1, E2. field. lra.
Qed.
Definition ex_f (t : R) := 1 * ex_c t + 1 / 3 * ex_s t.
Definition ex_h (t : R) := 0 * ex_c t + 2 / 3 * ex_s t.
Lemma ex_fh : ex_f 2 = 1 /\ ex_h 2 = 0 /\ is_derive ex_f 2 0 /\ is_derive ex_h 2 1.
Proof.
  assert (C2 : ex_c 2 = 1) by (unfold ex_c; rewrite Rminus_diag_eq, Rmult_0_r, cos_0 by reflexivity; field).
  assert (S2 : ex_s 2 = 0) by (unfold ex_s; rewrite Rminus_diag_eq, Rmult_0_r, sin_0 by reflexivity; field).
  unfold ex_f, ex_h. rewrite C2, S2. split; [ring|]. split; [ring|].
  split; (eapply is_derive_eq; [apply (@is_derive_plus R_AbsRing R_NormedModule); apply is_derive_scal; [apply ex_c_derive; lra|apply ex_s_derive; lra]|]; rewrite C2, S2; unfold plus; simpl; field).
Qed.
Lemma closed_N_ok t : 1 < t < 3 -> pV (Vexp 4) (T_phi true y_closed t) <> 3 * 1 * exp (-2 * T_N true y_closed t).
Proof. intros Ht. apply (proj2 (proj2 C52_nonvacuous) t Ht). Qed.
Theorem C112_nonvacuous : let yN := fun n => state_T2N 1 (Vexp 4) true true (exp n) (y_closed (exp n)) in
  T_background 1 (Vexp 4) true y_closed 1 3 /\ N_background 1 (Vexp 4) true true yN 0 (ln 3) /\ clock (T_N true y_closed) 1 3 exp 0 (ln 3) /\
  yN (T_N true y_closed 2) = state_T2N 1 (Vexp 4) true true 2 (y_closed 2) /\ regular_T false 1 2 (Vexp 4) true y_closed 1 3 /\
  exists u w, T_mode true 1 2 (Vexp 4) true y_closed u 1 3 /\ starts_from (Tt_vac_k 2 (T_sample 1 (Vexp 4) true y_closed 2)) u 2 /\
    N_mode true 1 2 (Vexp 4) true true yN w 0 (ln 3) /\ starts_from (Nt_vac_k 2 (N_sample 1 (Vexp 4) true true yN (T_N true y_closed 2))) w (T_N true y_closed 2).
Proof.
  cbv zeta. set (yN := fun n => state_T2N 1 (Vexp 4) true true (exp n) (y_closed (exp n))).
  assert (BN : N_background 1 (Vexp 4) true true yN 0 (ln 3)) by exact (proj1 C56_efolds_nonvacuous).
  split; [exact closed_background|]. split; [exact BN|]. split; [exact closed_clock|].
  split. { unfold yN. change (T_N true y_closed 2) with (ln 2). rewrite exp_ln by lra. reflexivity. }
  split. { intros _ t Ht. apply (proj2 (proj2 C52_nonvacuous) t Ht). }
  set (us := Tt_vac_k 2 (T_sample 1 (Vexp 4) true y_closed 2)). set (u := fun t => (RtoC (ex_f t) * fst us + RtoC (ex_h t) * snd us)%C).
  destruct ex_fh as (F2 & H2 & DF & DH).
  assert (OF : ex_osc ex_f 1 3) by (apply (osc_lin _ _ ex_c ex_s); [exact ex_c_osc|exact ex_s_osc]).
  assert (OH : ex_osc ex_h 1 3) by (apply (osc_lin _ _ ex_c ex_s); [exact ex_c_osc|exact ex_s_osc]).
  assert (U1 : forall t, fst (u t) = fst (fst us) * ex_f t + fst (snd us) * ex_h t) by (intros t; unfold u, Cplus, Cmult, RtoC; cbn [fst snd]; ring).
  assert (U2 : forall t, snd (u t) = snd (fst us) * ex_f t + snd (snd us) * ex_h t) by (intros t; unfold u, Cplus, Cmult, RtoC; cbn [fst snd]; ring).
  assert (L : forall p q, ex_osc (fun t => p * ex_f t + q * ex_h t) 1 3) by (intros p q; apply osc_lin; assumption).
  assert (OX : forall (d d' : R -> R), (forall t, d t = d' t) -> ex_osc d' 1 3 -> ex_osc d 1 3).
  { intros d d' E (f1 & F). exists f1. intros x Hx. destruct (F x Hx) as [A1 A2]. split; [apply (is_derive_ext d'); [intros r; symmetry; apply E|exact A1]|]. rewrite E. exact A2. }
  assert (MU : T_mode true 1 2 (Vexp 4) true y_closed u 1 3) by (split; [exact (OX _ _ U1 (L _ _))|exact (OX _ _ U2 (L _ _))]).
  assert (DL : forall p q, is_derive (fun t => p * ex_f t + q * ex_h t) 2 q).
  { intros p q. eapply is_derive_eq; [apply (@is_derive_plus R_AbsRing R_NormedModule); apply is_derive_scal; eassumption|]. unfold plus; simpl; ring. }
  assert (SU : starts_from us u 2).
  { split; [apply injective_projections; [rewrite U1, F2, H2; ring|rewrite U2, F2, H2; ring]|].
    split; (eapply is_derive_ext; [intros r; symmetry; first [apply U1|apply U2]|apply DL]). }
  assert (ext : forall t, 1 < t < 3 -> exp (T_N true y_closed t) = t) by (intros t Ht; change (T_N true y_closed t) with (ln t); apply exp_ln; lra).
  exists u, (fun n => u (exp n)). split; [exact MU|]. split; [exact SU|]. split.
  - assert (EQ : forall f : R -> R, ex_osc f 1 3 -> oscillator (fun n => damp false true 1 2 (Vexp 4) (N_sample 1 (Vexp 4) true true yN n)) (fun n => freq2 false true 1 2 (Vexp 4) (N_sample 1 (Vexp 4) true true yN n)) (fun n => f (exp n)) 0 (ln 3)).
    { intros f (f1 & F). apply (C52_tensor_equivalent 1 2 (Vexp 4) true true y_closed 1 3 0 (ln 3) exp (fun n => f (exp n)) closed_background closed_clock closed_N_ok).
      exists f1. intros x Hx. destruct (F x Hx) as [A1 A2]. rewrite ext by exact Hx. split; [|exact A2].
      apply is_derive_ext_loc with f; [|exact A1]. exists (mkposreal (Rmin (x - 1) (3 - x)) ltac:(apply Rmin_glb_lt; lra)). intros s Hs.
      rewrite ext; [reflexivity|]. unfold ball in Hs; simpl in Hs; unfold AbsRing_ball, abs, minus, plus, opp in Hs; simpl in Hs.
      apply Rabs_def2 in Hs. pose proof (Rmin_l (x - 1) (3 - x)). pose proof (Rmin_r (x - 1) (3 - x)). lra. }
    split; [exact (EQ (fun t => fst (u t)) (proj1 MU))|exact (EQ (fun t => snd (u t)) (proj2 MU))].
  - pose proof C55_nonvacuous as MA. fold yN in MA.
    assert (HP : s_H (T_sample 1 (Vexp 4) true y_closed 2) > 0) by (unfold T_sample; cbn [s_H]; rewrite closed_Hub by lra; lra).
    pose proof (C55_vacua_agree 1 2 (Vexp 4) _ _ MA HP) as (_ & _ & _ & (AG1 & AG2) & _). fold us in AG1, AG2.
    set (un := Nt_vac_k 2 (N_sample 1 (Vexp 4) true true yN (T_N true y_closed 2))) in *.
    assert (EH : s_H (T_sample 1 (Vexp 4) true y_closed 2) = / 2) by (unfold T_sample; cbn [s_H]; apply closed_Hub; lra). rewrite EH in AG2. clearbody un.
    assert (E2 : exp (T_N true y_closed 2) = 2) by (apply ext; lra).
    assert (DE : is_derive exp (T_N true y_closed 2) 2) by (eapply is_derive_eq; [apply is_derive_exp|symmetry; exact E2]).
    destruct SU as (S0 & S1 & S2). rewrite <- E2 in S1 at 1. rewrite <- E2 in S2 at 1.
    split; [rewrite E2, S0; exact AG1|]. split.
    + eapply is_derive_eq; [exact (is_derive_comp (fun t => fst (u t)) exp _ _ _ S1 DE)|]. rewrite AG2. unfold scal; simpl; unfold mult; simpl. field.
    + eapply is_derive_eq; [exact (is_derive_comp (fun t => snd (u t)) exp _ _ _ S2 DE)|]. rewrite AG2. unfold scal; simpl; unfold mult; simpl. field.
Qed.
