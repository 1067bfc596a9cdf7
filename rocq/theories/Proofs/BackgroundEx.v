(** Exact power-law solutions (used as witnesses) and smoothness of every coded potential. *)
From Coq Require Import Reals List String Lra Lia ZArith.
From Coquelicot Require Import Coquelicot.
From Verif Require Import Base Model.Potentials Model.Equations Model.Background Spec.PotentialSpec Spec.BackgroundSpec
  Proofs.PotentialDerivsAll Proofs.BackgroundT.
Import ListNotations.
Open Scope R_scope.

Lemma potfun_smooth P L phi : in_domain P phi -> smooth_pot (potfun_of P L) phi.
Proof.
  intros HD. 
  assert (A : forall x, in_domain P x -> is_derive_n (V P L) 1 x (dV P L x) /\ is_derive_n (V P L) 2 x (d2V P L x) /\ is_derive_n (V P L) 3 x (d3V P L x)).
  { intros x Hx. assert (F : featureless P \/ ~ featureless P) by (destruct P; simpl; tauto).
    destruct F as [F|F]; [destruct (potential_derivatives P L x F Hx) as [A1 [A2 [A3 _]]]|destruct (feature_derivatives P L x F Hx) as [A1 [A2 A3]]]; auto. }
  pose proof (in_domain_open P phi HD) as O.
  split; [exact (proj1 (A phi HD))|]. split.
  - apply (is_derive_ext_loc (Derive_n (V P L) 1)); [|exact (proj1 (proj2 (A phi HD)))].
    revert O. apply filter_imp. intros x Hx. apply is_derive_unique. exact (proj1 (A x Hx)).
  - apply (is_derive_ext_loc (Derive_n (V P L) 2)); [|exact (proj2 (proj2 (A phi HD)))].
    revert O. apply filter_imp. intros x Hx. apply is_derive_unique. exact (proj1 (proj2 (A x Hx))).
Qed.

(** V = v e^{-phi} *)
Definition Vexp (v : R) : potfun :=
  mkpotfun (fun x => v * exp (- x)) (fun x => - v * exp (- x)) (fun x => v * exp (- x)) (fun x => - v * exp (- x)).
Lemma Vexp_smooth v x : smooth_pot (Vexp v) x.
Proof. split; [|split]; unfold Vexp; simpl; evar_last; try (auto_derive; [exact I|reflexivity]); simpl; ring. Qed.

(** closed universe K=1: a = t, phi = 2 ln t, V = 4 e^{-phi} *)
Definition y_closed (t : R) : list R := [2 * ln t; 2 / t; ln t; ln t].
(** flat universe: a = t^2, phi = 2 ln t, V = 10 e^{-phi} *)
Definition y_flat (t : R) : list R := [2 * ln t; 2 / t; 2 * ln t; - / t].

Lemma exp_m2ln t : 0 < t -> exp (- (2 * ln t)) = / t^2.
Proof.
  intros. replace (- (2 * ln t)) with (- ln t + - ln t) by ring. rewrite exp_plus, exp_Ropp, exp_ln by assumption. field. lra.
Qed.
Lemma closed_H2 t : 0 < t -> T_H2 1 (Vexp 4) true t (y_closed t) = (/ t)^2.
Proof.
  intros Ht. unfold T_H2, T_get_H2, y_closed, Vexp. cbn. rewrite exp_m2ln by assumption.
  replace (-2 * ln t) with (- (2 * ln t)) by ring. rewrite exp_m2ln by assumption. field. lra.
Qed.
Lemma closed_background : T_background 1 (Vexp 4) true y_closed 1 3.
Proof.
  split.
  - intros t Ht. split; [reflexivity|]. intros i Hi.
    assert (SQ : sqrt (T_H2 1 (Vexp 4) true t (y_closed t)) = / t).
    { rewrite closed_H2 by lra. rewrite sqrt_pow2; [reflexivity|]. left. apply Rinv_0_lt_compat. lra. }
    unfold T_call, T_get_d2phi. rewrite SQ.
    cbn in Hi. destruct i as [|[|[|[|i]]]]; try lia; cbn; evar_last; try (auto_derive; [lra|reflexivity]); toR; try (field; lra).
    + rewrite exp_m2ln by lra. field. lra.
    + rewrite exp_Ropp, exp_ln by lra. ring.
  - intros t Ht. split; [rewrite closed_H2 by lra; apply pow_lt, Rinv_0_lt_compat; lra|apply Vexp_smooth].
Qed.
Lemma flat_H2 t : 0 < t -> T_H2 0 (Vexp 10) true t (y_flat t) = (2 / t)^2.
Proof.
  intros Ht. unfold T_H2, T_get_H2, y_flat, Vexp. cbn. rewrite exp_m2ln by assumption. field. lra.
Qed.
Lemma flat_background : T_background 0 (Vexp 10) true y_flat 1 3.
Proof.
  split.
  - intros t Ht. split; [reflexivity|]. intros i Hi.
    assert (SQ : sqrt (T_H2 0 (Vexp 10) true t (y_flat t)) = 2 / t).
    { rewrite flat_H2 by lra. rewrite sqrt_pow2; [reflexivity|]. left. apply Rdiv_lt_0_compat; lra. }
    unfold T_call, T_get_d2phi. rewrite SQ.
    cbn in Hi. destruct i as [|[|[|[|i]]]]; try lia; cbn; evar_last; try (auto_derive; [lra|reflexivity]); toR; try (field; lra).
    + rewrite exp_m2ln by lra. field. lra.
    + rewrite exp_m2ln by lra. field. lra.
  - intros t Ht. split; [rewrite flat_H2 by lra; apply pow_lt, Rdiv_lt_0_compat; lra|apply Vexp_smooth].
Qed.
