(** C85: get_epsilon_1 .. get_epsilon_4 approximate the Hubble-flow parameters by the potential slow-roll
    parameters. The exact relation between the two hierarchies is proved from the background equations
    (C85_exact_relation); the approximations satisfy that relation and the flow equations
    d ln eps_n / dN = eps_(n+1) up to explicit bounds of the order claimed. *)
From Coq Require Import Reals Lra Lia List.
From Coquelicot Require Import Coquelicot.
From Verif Require Import Base Model.Potentials Model.Background Model.HubbleFlow Spec.PotentialSpec
  Proofs.PotentialEpsAll Proofs.HubbleFlowRes.
Import ListNotations.
Open Scope R_scope.

(** the factor relating the two hierarchies: dphi/dN = -(V'/V) / factor *)
Definition HJ (e1 e2 : R) : R := 1 + e2 / (2 * (3 - e1)).

(** At every point of every flat cosmic-time trajectory with moving field, the Hubble-flow parameters the code
    computes and the slope of the potential are related exactly. *)
Theorem C85_exact_relation : forall N dphi v dv,
  v <> 0 -> dv <> 0 -> dphi <> 0 -> 0 < T_get_H2 N dphi v 0 ->
  let H := sqrt (T_get_H2 N dphi v 0) in
  let dH := T_get_dH N H dphi 0 in
  let d2phi := T_get_d2phi (T_get_H2 N dphi v 0) dphi dv in
  let d2H := T_get_d2H N H dH dphi d2phi 0 in
  let e1 := T_get_epsilon_1H H dH in
  let e2 := T_get_epsilon_2H Standard H dH d2H in
  HJ e1 e2 <> 0 /\
  (dv / v)^2 / 2 = e1 * HJ e1 e2 ^ 2 /\
  dphi / H = - (dv / v) / HJ e1 e2.
Proof.
  intros N dphi v dv Hv Hdv Hp HH H dH d2phi d2H e1 e2.
  assert (PH : 0 < H) by (apply sqrt_lt_R0; exact HH).
  assert (E : v = 3 * H^2 - dphi^2 / 2).
  { assert (H * H = T_get_H2 N dphi v 0) as X by (apply sqrt_def; lra). unfold T_get_H2 in X. simpl. lra. }
  assert (E1 : e1 = dphi^2 / (2 * H^2)).
  { unfold e1, T_get_epsilon_1H, dH, T_get_dH. field. lra. }
  assert (E2 : e2 = -6 - 2 * dv / (H * dphi) + dphi^2 / H^2).
  { unfold e2, T_get_epsilon_2H, d2H, T_get_d2H, d2phi, T_get_d2phi, dH, T_get_dH. fold H. field. repeat split; lra. }
  rewrite E1, E2. clear E1 E2 e1 e2 d2H d2phi dH HH. clearbody H.
  assert (E3 : 3 - dphi^2 / (2 * H^2) = v / H^2) by (rewrite E; field; lra).
  assert (Ef : HJ (dphi^2 / (2 * H^2)) (-6 - 2 * dv / (H * dphi) + dphi^2 / H^2) = - (H * dv) / (dphi * v)).
  { unfold HJ. rewrite E3.
    transitivity ((v - 3 * H^2 + dphi^2 / 2) / v - (H * dv) / (dphi * v)); [field; repeat split; lra|].
    replace (v - 3 * H^2 + dphi^2 / 2) with 0 by lra. field. split; lra. }
  rewrite Ef. split; [|split].
  - intros X. apply (Rmult_eq_compat_r (dphi * v)) in X.
    replace (- (H * dv) / (dphi * v) * (dphi * v)) with (- (H * dv)) in X by (field; split; lra).
    assert (Hm : H * dv <> 0) by (apply Rmult_integral_contrapositive_currified; lra). lra.
  - field. repeat split; lra.
  - field. repeat split; lra.
Qed.
(** a flat quadratic trajectory point: V = 1, V' = 1, dphi/dt = -1/2 *)
Theorem C85_exact_nonvacuous : (1 : R) <> 0 /\ (-1/2 : R) <> 0 /\ 0 < T_get_H2 0 (-1/2) 1 0.
Proof. unfold T_get_H2. repeat split; lra. Qed.

(** ** derivatives along the potential hierarchy *)
Lemma next_derive : forall P L e e' phi, V P L phi <> 0 -> dV P L phi <> 0 -> e phi <> 0 ->
  next_in_hierarchy (V P L) (dV P L) e e' phi -> is_derive e phi (- (V P L phi / dV P L phi) * (e phi * e')).
Proof.
  intros P L e e' phi HV HdV He [d [Hd E]].
  assert (X : (- (V P L phi / dV P L phi) * (e phi * e') : R) = d) by (rewrite E; field; repeat split; assumption).
  rewrite X. exact Hd.
Qed.

Section Order.
Variables (P : pot) (L phi : R).
Hypotheses (HF : featureless P) (HD : in_domain P phi) (HV : V P L phi <> 0) (HdV : dV P L phi <> 0).
Hypotheses (N2 : eps2V P phi <> 0) (N3 : eps3V P phi <> 0).
Let x1 := eps1V P phi. Let x2 := eps2V P phi. Let x3 := eps3V P phi. Let x4 := eps4V P phi.
Let c := - (V P L phi / dV P L phi).
Lemma N1 : x1 <> 0.
Proof.
  unfold x1. rewrite (eps1_all P L phi HF HD HV HdV). unfold Rdiv at 1. apply Rmult_integral_contrapositive_currified; [|lra].
  apply pow_nonzero. unfold Rdiv. apply Rmult_integral_contrapositive_currified; [assumption|apply Rinv_neq_0_compat; assumption].
Qed.
Lemma D1 : is_derive (eps1V P) phi (c * (x1 * x2)).
Proof. apply next_derive; try assumption; [exact N1|apply eps2_all; assumption]. Qed.
Lemma D2 : is_derive (eps2V P) phi (c * (x2 * x3)).
Proof. apply next_derive; try assumption. apply eps3_all; assumption. Qed.
Lemma D3 : is_derive (eps3V P) phi (c * (x3 * x4)).
Proof. apply next_derive; try assumption. apply eps4_all; assumption. Qed.
Ltac dv :=
  repeat match goal with
  | |- context [Derive ?f phi] =>
      first [rewrite (is_derive_unique f phi _ D1)|rewrite (is_derive_unique f phi _ D2)|rewrite (is_derive_unique f phi _ D3)
            |match goal with H : is_derive (eps4V P) phi _ |- _ => rewrite (is_derive_unique f phi _ H) end]
  end; match goal with |- ?a = ?b => change (@eq R a b) end.
Lemma Dflow1 : is_derive (get_epsilon_1 P) phi (c * dflow1 x1 x2 x3 x4).
Proof.
  unfold get_epsilon_1, flow1.
  evar_last; [auto_derive; [repeat split; eexists; first [exact D1|exact D2|exact D3]|]|].
  - reflexivity.
  - dv. fold x1 x2 x3. unfold dflow1. field.
Qed.
Variable x5 : R.
Hypothesis N4 : x4 <> 0.
Hypothesis H5 : next_in_hierarchy (V P L) (dV P L) (eps4V P) x5 phi.
Lemma D4 : is_derive (eps4V P) phi (c * (x4 * x5)).
Proof. apply next_derive; assumption. Qed.
Lemma Dflow2 : is_derive (get_epsilon_2 P) phi (c * dflow2 x1 x2 x3 x4 x5).
Proof.
  pose proof D4 as D4'. unfold get_epsilon_2, flow2.
  evar_last; [auto_derive; [repeat split; eexists; first [exact D1|exact D2|exact D3|exact D4]|]|].
  - reflexivity.
  - dv. fold x1 x2 x3 x4. unfold dflow2. field.
Qed.
Lemma Dflow3 : is_derive (get_epsilon_3 P) phi (c * dflow3 x1 x2 x3 x4 x5).
Proof.
  pose proof D4 as D4'. unfold get_epsilon_3, flow3.
  evar_last; [auto_derive; [repeat split; eexists; first [exact D1|exact D2|exact D3|exact D4]|]|].
  - reflexivity.
  - dv. fold x1 x2 x3 x4. unfold dflow3. field.
Qed.
End Order.

(** all four potential slow-roll parameters are at most [d] *)
Definition slow (P : pot) (phi d : R) : Prop :=
  0 <= d <= 1/2 /\ Rabs (eps1V P phi) <= d /\ Rabs (eps2V P phi) <= d /\ Rabs (eps3V P phi) <= d /\ Rabs (eps4V P phi) <= d.
(** [f] changes by [r] per e-fold along the trajectory whose Hubble-flow parameters are [h1], [h2]:
    df/dN = f'(phi) dphi/dN with dphi/dN = -(V'/V) / HJ h1 h2 *)
Definition per_efold (P : pot) (L phi h1 h2 : R) (f : R -> R) (r : R) : Prop :=
  exists f', is_derive f phi f' /\ r = f' * (- (dV P L phi / V P L phi) / HJ h1 h2).

Lemma Rabs_quot : forall a b m k, 0 < m -> m <= b -> Rabs a <= k -> Rabs (a / b) <= k / m.
Proof.
  intros a b m k Hm Hb Ha. unfold Rdiv. rewrite Rabs_mult, Rabs_inv, (Rabs_pos_eq b) by lra.
  pose proof (Rabs_pos a). apply Rmult_le_compat; try lra.
  - left. apply Rinv_0_lt_compat. lra.
  - apply Rinv_le_contravar; lra.
Qed.

(** get_epsilon_1 and get_epsilon_2 solve the exact relation up to fourth order, and get_epsilon_2 is the
    logarithmic derivative of get_epsilon_1 up to fourth order: both are accurate to third order. *)
Theorem C85_third_order : forall P L phi d,
  featureless P -> in_domain P phi -> V P L phi <> 0 -> dV P L phi <> 0 -> eps2V P phi <> 0 -> eps3V P phi <> 0 ->
  slow P phi d ->
  let h1 := get_epsilon_1 P phi in
  let h2 := get_epsilon_2 P phi in
  0 < HJ h1 h2 /\
  Rabs ((dV P L phi / V P L phi)^2 / 2 - h1 * HJ h1 h2 ^ 2) <= 3 * d ^ 4 /\
  exists r, per_efold P L phi h1 h2 (get_epsilon_1 P) r /\ Rabs (r - h1 * h2) <= 3 * d ^ 5.
Proof.
  intros P L phi d HF HD HV HdV N2 N3 (Hd & B1 & B2 & B3 & B4) h1 h2.
  set (x1 := eps1V P phi) in *. set (x2 := eps2V P phi) in *. set (x3 := eps3V P phi) in *. set (x4 := eps4V P phi) in *.
  assert (B0 : Rabs 0 <= d) by (rewrite Rabs_R0; lra).
  pose proof (hj_low x1 x2 x3 x4 0 d Hd B1 B2 B3 B4 B0) as J.
  pose proof (u_low x1 x2 x3 x4 0 d Hd B1 B2 B3 B4 B0) as Ulow.
  pose proof (A_bound x1 x2 x3 x4 0 d Hd B1 B2 B3 B4 B0) as AB.
  pose proof (B1_bound x1 x2 x3 x4 0 d Hd B1 B2 B3 B4 B0) as BB.
  assert (F1 : flow1 x1 x2 x3 = h1) by reflexivity. assert (F2 : flow2 x1 x2 x3 x4 = h2) by reflexivity.
  assert (J2 : hj x1 x2 x3 = 2 * (3 - h1)) by reflexivity.
  rewrite F1, F2 in *. set (u := hj x1 x2 x3 + h2) in *.
  assert (Q : HJ h1 h2 = u / hj x1 x2 x3) by (unfold HJ, u; rewrite <- J2; field; lra).
  rewrite Q. split; [apply Rdiv_lt_0_compat; lra|]. split.
  - rewrite <- (eps1_all P L phi HF HD HV HdV). fold x1.
    replace (x1 - h1 * (u / hj x1 x2 x3) ^ 2) with ((x1 * hj x1 x2 x3 ^ 2 - h1 * u ^ 2) / hj x1 x2 x3 ^ 2) by (field; lra).
    eapply Rle_trans; [apply (Rabs_quot _ _ 16 (40 * d^4)); [lra|nra|exact AB]|]. pose proof (pow_le d 4 ltac:(lra)). lra.
  - eexists. split; [eexists; split; [exact (Dflow1 P L phi HF HD HV HdV N2 N3)|reflexivity]|].
    fold x1 x2 x3 x4. rewrite Q.
    match goal with |- Rabs ?t <= _ => replace t with ((dflow1 x1 x2 x3 x4 * hj x1 x2 x3 - h1 * h2 * u) / u)
      by (field; repeat split; lra) end.
    eapply Rle_trans; [apply (Rabs_quot _ _ 3 (7 * d^5)); [lra|exact Ulow|exact BB]|]. pose proof (pow_le d 5 ltac:(lra)). lra.
Qed.

(** get_epsilon_3 and get_epsilon_4: accurate to second and first order. The only term missing at the next order
    is the one with the fifth parameter eps5V, which the code sets to zero. *)
Theorem C85_higher_parameters : forall P L phi d e5,
  featureless P -> in_domain P phi -> V P L phi <> 0 -> dV P L phi <> 0 ->
  eps2V P phi <> 0 -> eps3V P phi <> 0 -> eps4V P phi <> 0 ->
  next_in_hierarchy (V P L) (dV P L) (eps4V P) e5 phi -> slow P phi d -> Rabs e5 <= d ->
  let h1 := get_epsilon_1 P phi in
  let h2 := get_epsilon_2 P phi in
  let h3 := get_epsilon_3 P phi in
  let h4 := get_epsilon_4 P phi in
  (exists r, per_efold P L phi h1 h2 (get_epsilon_2 P) r /\ Rabs (r - h2 * h3) <= 7 * d ^ 4 /\
     Rabs (r - h2 * (h3 + eps3V P phi * eps4V P phi * e5 / 9)) <= 7 * d ^ 5) /\
  (exists r, per_efold P L phi h1 h2 (get_epsilon_3 P) r /\ Rabs (r - h3 * h4) <= 14 * d ^ 3 /\
     Rabs (r - h3 * (h4 - eps4V P phi * e5 / 3)) <= 15 * d ^ 4).
Proof.
  intros P L phi d e5 HF HD HV HdV N2 N3 N4 H5 (Hd & B1 & B2 & B3 & B4) B5 h1 h2 h3 h4.
  set (x1 := eps1V P phi) in *. set (x2 := eps2V P phi) in *. set (x3 := eps3V P phi) in *. set (x4 := eps4V P phi) in *.
  pose proof (hj_low x1 x2 x3 x4 e5 d Hd B1 B2 B3 B4 B5) as J.
  pose proof (u_low x1 x2 x3 x4 e5 d Hd B1 B2 B3 B4 B5) as Ulow.
  pose proof (B2_bound x1 x2 x3 x4 e5 d Hd B1 B2 B3 B4 B5) as BB2.
  pose proof (B2p_bound x1 x2 x3 x4 e5 d Hd B1 B2 B3 B4 B5) as BB2p.
  pose proof (B3_bound x1 x2 x3 x4 e5 d Hd B1 B2 B3 B4 B5) as BB3.
  pose proof (B3p_bound x1 x2 x3 x4 e5 d Hd B1 B2 B3 B4 B5) as BB3p.
  assert (F1 : flow1 x1 x2 x3 = h1) by reflexivity. assert (F2 : flow2 x1 x2 x3 x4 = h2) by reflexivity.
  assert (F3 : flow3 x1 x2 x3 x4 = h3) by reflexivity. assert (F4 : flow4 x2 x3 x4 = h4) by reflexivity.
  assert (J2 : hj x1 x2 x3 = 2 * (3 - h1)) by reflexivity.
  rewrite F2, F3 in *. rewrite F4 in *. set (u := hj x1 x2 x3 + h2) in *.
  assert (Q : HJ h1 h2 = u / hj x1 x2 x3) by (unfold HJ, u; rewrite <- J2; field; lra).
  split; eexists; (split; [eexists; split; [first [exact (Dflow2 P L phi HF HD HV HdV N2 N3 e5 N4 H5)
                                                  |exact (Dflow3 P L phi HF HD HV HdV N2 N3 e5 N4 H5)]|reflexivity]|]);
    fold x1 x2 x3 x4; rewrite Q; split.
  - match goal with |- Rabs ?t <= _ => replace t with ((dflow2 x1 x2 x3 x4 e5 * hj x1 x2 x3 - h2 * h3 * u) / u)
      by (field; repeat split; lra) end.
    eapply Rle_trans; [apply (Rabs_quot _ _ 3 _ ltac:(lra) Ulow BB2)|]. lra.
  - match goal with |- Rabs ?t <= _ => replace t with ((dflow2 x1 x2 x3 x4 e5 * hj x1 x2 x3 - h2 * (h3 + 1/9*x3*x4*e5) * u) / u)
      by (field; repeat split; lra) end.
    eapply Rle_trans; [apply (Rabs_quot _ _ 3 _ ltac:(lra) Ulow BB2p)|]. lra.
  - match goal with |- Rabs ?t <= _ => replace t with ((dflow3 x1 x2 x3 x4 e5 * hj x1 x2 x3 - h3 * h4 * u) / u)
      by (field; repeat split; lra) end.
    eapply Rle_trans; [apply (Rabs_quot _ _ 3 _ ltac:(lra) Ulow BB3)|]. pose proof (pow_le d 3 ltac:(lra)). lra.
  - match goal with |- Rabs ?t <= _ => replace t with ((dflow3 x1 x2 x3 x4 e5 * hj x1 x2 x3 - h3 * (h4 - 1/3*x4*e5) * u) / u)
      by (field; repeat split; lra) end.
    eapply Rle_trans; [apply (Rabs_quot _ _ 3 _ ltac:(lra) Ulow BB3p)|]. pose proof (pow_le d 4 ltac:(lra)). lra.
Qed.

(** quadratic inflation at phi = 10: all parameters are 1/50 or 1/25, so is the fifth one *)
Theorem C85_nonvacuous : let P := Quadratic in
  featureless P /\ in_domain P 10 /\ V P 1 10 <> 0 /\ dV P 1 10 <> 0 /\ eps2V P 10 <> 0 /\ eps3V P 10 <> 0 /\ eps4V P 10 <> 0 /\
  next_in_hierarchy (V P 1) (dV P 1) (eps4V P) (1/25) 10 /\ slow P 10 (1/25).
Proof.
  cbv zeta. unfold featureless, in_domain, slow, next_in_hierarchy.
  cbv [V dV eps1V eps2V eps3V eps4V quad_V quad_dV mono_eps1 mono_eps2 mono_eps3 mono_eps4].
  repeat split; try lra; try (intros X; lra); try (rewrite Rabs_pos_eq; lra).
  exists (-8 / 10^3). split; [|lra]. auto_derive; [lra|]. match goal with |- ?a = ?b => change (@eq R a b) end. field.
Qed.
