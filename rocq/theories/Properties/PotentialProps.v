(** Properties C01-C06 of the inflationary potentials (/repo/primpy/potentials.py). *)
From Coq Require Import Reals ZArith Lra Lia.
From Coquelicot Require Import Coquelicot.
From Verif Require Import Base Model.Potentials Model.SlowRoll Spec.PotentialSpec Spec.SlowRollSpec
  Proofs.BaseLemmas Proofs.PotentialDerivs Proofs.PotentialDerivsAll Proofs.PotentialEpsAll Proofs.InvV Proofs.PhiEnd.
Open Scope R_scope.

(** C01: dV..d4V are the derivatives of V, all classes without a feature. *)
Theorem C01_derivatives_of_V : forall P L phi,
  featureless P -> in_domain P phi ->
  is_derive_n (V P L) 1 phi (dV P L phi) /\ is_derive_n (V P L) 2 phi (d2V P L phi) /\
  is_derive_n (V P L) 3 phi (d3V P L phi) /\ is_derive_n (V P L) 4 phi (d4V P L phi).
Proof. exact potential_derivatives. Qed.

Theorem C01_nonvacuous :
  featureless (DoubleWell (5/2) 3) /\ in_domain (DoubleWell (5/2) 3) 1 /\
  featureless (Monomial (2/3)) /\ in_domain (Monomial (2/3)) (-2) /\
  featureless (DoubleWell4 3) /\ in_domain (DoubleWell4 3) 5 /\
  featureless (RadionGauge 1 7) /\ in_domain (RadionGauge 1 7) 2.
Proof.
  unfold in_domain, featureless, pow_ok. rewrite pypow_pos by lra. rewrite Rpower_1 by lra.
  repeat match goal with |- _ /\ _ => split end; try exact I; try lra; try (left; lra).
Qed.

(** C02: with a feature, dV..d3V are the first three derivatives of V. *)
Theorem C02_feature_derivatives : forall P L phi,
  ~ featureless P -> in_domain P phi ->
  is_derive_n (V P L) 1 phi (dV P L phi) /\ is_derive_n (V P L) 2 phi (d2V P L phi) /\
  is_derive_n (V P L) 3 phi (d3V P L phi).
Proof. exact feature_derivatives. Qed.

Theorem C02_nonvacuous :
  ~ featureless (StarobinskyTanhStep 5 (1/100) (1/10)) /\ in_domain (StarobinskyTanhStep 5 (1/100) (1/10)) 4 /\
  ~ featureless (StarobinskyGaussianDip 5 (1/100) (1/10)) /\ in_domain (StarobinskyGaussianDip 5 (1/100) (1/10)) 4.
Proof. simpl. repeat match goal with |- _ /\ _ => split end; try tauto; lra. Qed.

(** The potential with a feature is the featureless one times (1 + F) (definition of V in the
    class docstring), and removing the feature (amplitude 0) gives back the base potential. *)
Theorem C02_feature_off : forall f b L phi,
  V (StarobinskyGaussianDip f 0 b) L phi = V Starobinsky L phi /\
  V (StarobinskyTanhStep f 0 b) L phi = V Starobinsky L phi.
Proof. intros. simpl. unfold feat_V, gd_F, ts_F. split; ring. Qed.

(** C04: the closed-form slow-roll parameters are the potential slow-roll hierarchy. *)
Theorem C04_slow_roll_hierarchy : forall P L phi,
  featureless P -> in_domain P phi -> V P L phi <> 0 -> dV P L phi <> 0 ->
  eps1V P phi = (dV P L phi / V P L phi)^2 / 2 /\
  next_in_hierarchy (V P L) (dV P L) (eps1V P) (eps2V P phi) phi /\
  (eps2V P phi <> 0 -> next_in_hierarchy (V P L) (dV P L) (eps2V P) (eps3V P phi) phi) /\
  (eps2V P phi <> 0 -> eps3V P phi <> 0 -> next_in_hierarchy (V P L) (dV P L) (eps3V P) (eps4V P phi) phi).
Proof.
  intros P L phi HF HD HV HdV. repeat match goal with |- _ /\ _ => split end; intros.
  - apply eps1_all; assumption.
  - apply eps2_all; assumption.
  - apply eps3_all; assumption.
  - apply eps4_all; assumption.
Qed.

Theorem C04_nonvacuous : let P := Quadratic in
  featureless P /\ in_domain P 3 /\ V P 1 3 <> 0 /\ dV P 1 3 <> 0 /\ eps2V P 3 <> 0 /\ eps3V P 3 <> 0.
Proof. simpl. unfold quad_V, quad_dV, mono_eps2, mono_eps3. repeat match goal with |- _ /\ _ => split end; try exact I; lra. Qed.

(** C05: inv_V is a right and left inverse of V on the inflating branch. *)
Theorem C05_inv_V_right : forall P L v,
  featureless P -> valid P -> attainable P L v -> V P L (inv_V P L v) = v.
Proof. exact inv_V_right. Qed.
Theorem C05_inv_V_left : forall P L phi,
  featureless P -> valid P -> 0 < L -> branch P phi -> inv_V P L (V P L phi) = phi.
Proof. exact inv_V_left. Qed.
Theorem C05_nonvacuous :
  featureless (Tmodel 1 2) /\ valid (Tmodel 1 2) /\ attainable (Tmodel 1 2) 3 80 /\ branch (Tmodel 1 2) 5 /\
  valid (DoubleWell 3 10) /\ attainable (DoubleWell 3 10) 2 16 /\ branch (DoubleWell 3 10) 1.
Proof. simpl. repeat match goal with |- _ /\ _ => split end; try exact I; lra. Qed.

(** C06: phi_end is a positive field value with epsilon_1V = 1. *)
Theorem C06_phi_end : forall root P L e,
  root_spec root -> featureless P -> valid P -> L <> 0 ->
  phi_end root P L = Ok e -> 0 < e /\ eps1V P e = 1.
Proof. exact phi_end_spec. Qed.
(** ... and the closed forms never fail *)
Theorem C06_phi_end_total : forall root P L,
  match P with DoubleWell _ _ | DoubleWell4 _ | RadionGauge _ _ => True
  | _ => exists e, phi_end root P L = Ok e end.
Proof. destruct P; try exact I; eexists; reflexivity. Qed.
Theorem C06_nonvacuous :
  root_spec (fun f a b => if Req_EM_T (f ((a+b)/2)) 0 then Ok ((a+b)/2) else Raise ValueError).
Proof.
  intros f a b r. destruct (Req_EM_T (f ((a+b)/2)) 0) as [E|]; [|discriminate]. intros H; injection H as <-.
  split; [exact E|]. unfold Rmin, Rmax. destruct (Rle_dec a b); lra.
Qed.

