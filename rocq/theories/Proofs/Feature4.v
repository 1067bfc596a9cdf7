From Coq Require Import Reals ZArith Lra Lia.
From Coquelicot Require Import Coquelicot.
From Verif Require Import Base Model.Potentials Spec.PotentialSpec Proofs.BaseLemmas
  Proofs.PotentialDerivs Proofs.PotentialDerivsAll Proofs.PotentialEps Proofs.PhiEnd.
Open Scope R_scope.

(** the true fourth derivatives of the features *)
Definition gd_d4F_true (x x0 a b : R) :=
  a / b^8 * (- (x - x0)^4 + 6 * b^2 * (x - x0)^2 - 3 * b^4) * exp (- (x - x0)^2 / (2 * b^2)).
Definition ts_d4F_true (x x0 a b : R) :=
  -2 * a / b^4 * (-8 * tanh ((x - x0) / b) + 12 * (tanh ((x - x0) / b))^3) * (1 - (tanh ((x - x0) / b))^2).
Lemma gd_D4 x0 a b x : b <> 0 -> is_derive (fun t => gd_d3F t x0 a b) x (gd_d4F_true x x0 a b).
Proof.
  intros Hb. set (G t := exp (- (t - x0)^2 / (2 * b^2))).
  assert (HG : forall y, is_derive G y (- (y - x0) / b^2 * G y)) by (intros; apply is_derive_G; exact Hb).
  apply (is_derive_ext (fun t => a / b^6 * (t - x0) * ((t - x0)^2 - 3 * b^2) * G t)); [reflexivity|].
  unfold gd_d4F_true. fold (G x).
  auto_derive; [eexists; apply HG|]. change (fun x1 : R => G x1) with G.
  rewrite (is_derive_unique _ _ _ (HG x)). field; exact Hb.
Qed.
Lemma ts_D4 x0 a b x : b <> 0 -> is_derive (fun t => ts_d3F t x0 a b) x (ts_d4F_true x x0 a b).
Proof.
  intros Hb. set (T t := tanh ((t - x0) / b)).
  assert (HT : forall y, is_derive T y ((1 - T y ^2) / b)) by (intros; apply is_derive_T; exact Hb).
  apply (is_derive_ext (fun t => -2 * a / b^3 * (1 - 4 * T t^2 + 3 * T t^4))); [reflexivity|].
  unfold ts_d4F_true. fold (T x).
  auto_derive; [repeat match goal with |- _ /\ _ => split end; try exact I; eexists; apply HT|]. change (fun x1 : R => T x1) with T.
  rewrite (is_derive_unique _ _ _ (HT x)). field; exact Hb.
Qed.
Lemma feat_D4 (V0 dV0 d2V0 d3V0 F dF d2F d3F : R -> R) x d4V0 d4F :
  is_derive V0 x (dV0 x) -> is_derive dV0 x (d2V0 x) -> is_derive d2V0 x (d3V0 x) -> is_derive d3V0 x d4V0 ->
  is_derive F x (dF x) -> is_derive dF x (d2F x) -> is_derive d2F x (d3F x) -> is_derive d3F x d4F ->
  is_derive (feat_d3V V0 dV0 d2V0 d3V0 F dF d2F d3F) x
    (d4V0 * (1 + F x) + 4 * d3V0 x * dF x + 6 * d2V0 x * d2F x + 4 * dV0 x * d3F x + V0 x * d4F).
Proof.
  intros A1 A2 A3 A4 B1 B2 B3 B4. unfold feat_d3V. auto_derive.
  - repeat match goal with |- _ /\ _ => split end; try exact I; eexists; eassumption.
  - change (fun x0 : R => V0 x0) with V0; change (fun x0 : R => dV0 x0) with dV0;
    change (fun x0 : R => d2V0 x0) with d2V0; change (fun x0 : R => d3V0 x0) with d3V0;
    change (fun x0 : R => F x0) with F; change (fun x0 : R => d3F x0) with d3F;
    change (fun x0 : R => dF x0) with dF; change (fun x0 : R => d2F x0) with d2F.
    rewrite (is_derive_unique _ _ _ A1), (is_derive_unique _ _ _ A2), (is_derive_unique _ _ _ A3), (is_derive_unique _ _ _ A4),
      (is_derive_unique _ _ _ B1), (is_derive_unique _ _ _ B2), (is_derive_unique _ _ _ B3), (is_derive_unique _ _ _ B4). ring.
Qed.

Lemma derive_n_4 f f1 f2 f3 x l :
  (forall t, is_derive f t (f1 t)) -> (forall t, is_derive f1 t (f2 t)) ->
  (forall t, is_derive f2 t (f3 t)) -> is_derive f3 x l -> is_derive_n f 4 x l.
Proof.
  intros H1 H2 H3 H4.
  assert (E1 : forall t, Derive_n f 1 t = f1 t) by (intros t; apply is_derive_unique, H1).
  assert (E2 : forall t, Derive_n f 2 t = f2 t).
  { intros t. apply is_derive_unique. apply (is_derive_ext f1); [intros; symmetry; apply E1|apply H2]. }
  assert (E3 : forall t, Derive_n f 3 t = f3 t).
  { intros t. apply is_derive_unique. apply (is_derive_ext f2); [intros; symmetry; apply E2|apply H3]. }
  apply (is_derive_ext f3); [intros; symmetry; apply E3|exact H4].
Qed.

Lemma dip_fourth f a b L x : b <> 0 ->
  is_derive_n (V (StarobinskyGaussianDip f a b) L) 4 x
    (star_d4V L x * (1 + gd_F x f a b) + 4 * star_d3V L x * gd_dF x f a b
     + 6 * star_d2V L x * gd_d2F x f a b + 4 * star_dV L x * gd_d3F x f a b + star_V L x * gd_d4F_true x f a b).
Proof.
  intros Hb. apply (derive_n_4 _ (dV (StarobinskyGaussianDip f a b) L) (d2V (StarobinskyGaussianDip f a b) L) (d3V (StarobinskyGaussianDip f a b) L)); simpl; intros.
  - apply feat_D1; [apply star_D1|intros; apply gd_D1; exact Hb].
  - apply feat_D2; [apply star_D1|apply star_D2|intros; apply gd_D1; exact Hb|intros; apply gd_D2; exact Hb].
  - apply feat_D3; [apply star_D1|apply star_D2|apply star_D3|intros; apply gd_D1; exact Hb
                     |intros; apply gd_D2; exact Hb|intros; apply gd_D3; exact Hb].
  - apply (feat_D4 (star_V L) (star_dV L) (star_d2V L) (star_d3V L) (fun t => gd_F t f a b) (fun t => gd_dF t f a b) (fun t => gd_d2F t f a b) (fun t => gd_d3F t f a b));
    [apply star_D1|apply star_D2|apply star_D3|apply star_D4|apply gd_D1|apply gd_D2|apply gd_D3|apply gd_D4]; exact Hb.
Qed.
Lemma step_fourth f a b L x : b <> 0 ->
  is_derive_n (V (StarobinskyTanhStep f a b) L) 4 x
    (star_d4V L x * (1 + ts_F x f a b) + 4 * star_d3V L x * ts_dF x f a b
     + 6 * star_d2V L x * ts_d2F x f a b + 4 * star_dV L x * ts_d3F x f a b + star_V L x * ts_d4F_true x f a b).
Proof.
  intros Hb. apply (derive_n_4 _ (dV (StarobinskyTanhStep f a b) L) (d2V (StarobinskyTanhStep f a b) L) (d3V (StarobinskyTanhStep f a b) L)); simpl; intros.
  - apply feat_D1; [apply star_D1|intros; apply ts_D1; exact Hb].
  - apply feat_D2; [apply star_D1|apply star_D2|intros; apply ts_D1; exact Hb|intros; apply ts_D2; exact Hb].
  - apply feat_D3; [apply star_D1|apply star_D2|apply star_D3|intros; apply ts_D1; exact Hb
                     |intros; apply ts_D2; exact Hb|intros; apply ts_D3; exact Hb].
  - apply (feat_D4 (star_V L) (star_dV L) (star_d2V L) (star_d3V L) (fun t => ts_F t f a b) (fun t => ts_dF t f a b) (fun t => ts_d2F t f a b) (fun t => ts_d3F t f a b));
    [apply star_D1|apply star_D2|apply star_D3|apply star_D4|apply ts_D1|apply ts_D2|apply ts_D3|apply ts_D4]; exact Hb.
Qed.
Lemma star_at0 : star_V 1 0 = 0 /\ star_dV 1 0 = 0 /\ star_d2V 1 0 = 2 * gamma^2 /\ star_d3V 1 0 = -6 * gamma^3 /\ star_d4V 1 0 = 14 * gamma^4.
Proof.
  unfold star_V, star_dV, star_d2V, star_d3V, star_d4V. rewrite !Rmult_0_r, !exp_0. splits; ring.
Qed.
Lemma dip_d4V_wrong : ~ is_derive_n (V (StarobinskyGaussianDip 0 1 1) 1) 4 0 (d4V (StarobinskyGaussianDip 0 1 1) 1 0).
Proof.
  intros H. pose proof (dip_fourth 0 1 1 1 0 ltac:(lra)) as T.
  assert (E := eq_trans (eq_sym (is_derive_unique _ _ _ H)) (is_derive_unique _ _ _ T)). clear H T.
  simpl d4V in E. destruct star_at0 as (S0 & S1 & S2 & S3 & S4). rewrite S0, S1, S2, S3, S4 in E.
  unfold gd_F, gd_dF, gd_d2F, gd_d3F, gd_d4F_true in E.
  replace (- (0 - 0)^2 / (2 * 1^2)) with 0 in E by field. rewrite exp_0 in E.
  pose proof gamma_sq as G. replace (gamma^4) with ((gamma*gamma)*(gamma*gamma)) in E by ring.
  replace (gamma^2) with (gamma*gamma) in E by ring. rewrite G in E.
  replace (gamma^3) with (gamma*gamma*gamma) in E by ring. rewrite G in E. lra.
Qed.
