From Coq Require Import Reals ZArith Lra Lia.
From Coquelicot Require Import Coquelicot.
From Verif Require Import Base Model.Potentials Spec.PotentialSpec Proofs.BaseLemmas
  Proofs.PotentialDerivs Proofs.PotentialDerivsAll Proofs.PotentialEps Proofs.PotentialEps2.
Open Scope R_scope.

Lemma L4_gt0 L : L <> 0 -> 0 < L^4.
Proof. intros H. replace (L^4) with ((L^2)^2) by ring. apply pow2_gt_0. apply pow_nonzero; exact H. Qed.
Lemma L2_gt0 L : L <> 0 -> 0 < L^2.
Proof. intros H. apply pow2_gt_0; exact H. Qed.

(** x ** (1/p) ** p = x for x >= 0, p <> 0 *)
Lemma pypow_root x p : 0 <= x -> p <> 0 -> pypow (pypow x (1/p)) p = x.
Proof.
  intros Hx Hp. destruct (Req_EM_T x 0) as [->|Hn].
  - assert (H1p : 1/p <> 0) by (unfold Rdiv; rewrite Rmult_1_l; apply Rinv_neq_0_compat; exact Hp).
    assert (Z : forall y, y <> 0 -> pypow 0 y = 0).
    { intros y Hy. unfold pypow. destruct (Rlt_dec 0 0); [lra|]. destruct (Req_EM_T 0 0); [|congruence].
      destruct (Req_EM_T y 0); [contradiction|reflexivity]. }
    rewrite (Z (1/p)) by exact H1p. apply Z; exact Hp.
  - assert (0 < x) by lra. rewrite (pypow_pos x) by assumption.
    rewrite pypow_pos by apply exp_pos. rewrite Rpower_mult.
    replace (1/p*p) with 1 by (field; exact Hp). apply Rpower_1; assumption.
Qed.
Lemma pypow_root' x p : 0 <= x -> p <> 0 -> pypow (pypow x p) (1/p) = x.
Proof.
  intros Hx Hp. rewrite <- (pypow_root x (1/p)) at 2.
  - f_equal. f_equal. field; exact Hp.
  - exact Hx.
  - unfold Rdiv; rewrite Rmult_1_l; apply Rinv_neq_0_compat; exact Hp.
Qed.
Lemma pypow_ge0 x y : 0 <= x -> 0 <= pypow x y.
Proof.
  intros H. destruct (Req_EM_T x 0) as [->|Hn].
  - unfold pypow. destruct (Rlt_dec 0 0); [lra|]. destruct (Req_EM_T 0 0); [|congruence].
    destruct (Req_EM_T y 0); lra.
  - left; apply pypow_gt0; lra.
Qed.
Lemma pypow_0_l y : y <> 0 -> pypow 0 y = 0.
Proof.
  intros Hy. unfold pypow. destruct (Rlt_dec 0 0); [lra|]. destruct (Req_EM_T 0 0); [|congruence].
  destruct (Req_EM_T y 0); [contradiction|reflexivity].
Qed.
Lemma pypow_1_l y : pypow 1 y = 1.
Proof. rewrite pypow_pos by lra. unfold Rpower. rewrite ln_1, Rmult_0_r. apply exp_0. Qed.

Lemma pypow_incr x y p : 0 < p -> 0 <= x -> x < y -> pypow x p < pypow y p.
Proof.
  intros Hp Hx Hy. destruct (Req_EM_T x 0) as [->|Hn].
  - rewrite pypow_0_l by lra. apply pypow_gt0; lra.
  - rewrite !pypow_pos by lra. unfold Rpower. apply exp_increasing.
    apply Rmult_lt_compat_l; [exact Hp|]. apply ln_increasing; lra.
Qed.
Lemma pypow_incr_le x y p : 0 < p -> 0 <= x -> x <= y -> pypow x p <= pypow y p.
Proof.
  intros Hp Hx [Hy|Hy]; [left; apply pypow_incr; assumption|rewrite Hy; right; reflexivity].
Qed.

(* ----- monomial ----- *)
Lemma mono_inv1 p L v : 0 < p -> L <> 0 -> 0 <= v -> mono_V p L (mono_inv_V p L v) = v.
Proof.
  intros Hp HL Hv. unfold mono_V, mono_inv_V. pose proof (L4_gt0 L HL) as H4.
  assert (0 <= v / L^4) by (apply Rdiv_le_0_compat; assumption).
  rewrite Rabs_pos_eq by (apply pypow_ge0; assumption).
  rewrite pypow_root by (assumption || lra). field; exact HL.
Qed.
Lemma mono_inv2 p L phi : 0 < p -> L <> 0 -> 0 <= phi -> mono_inv_V p L (mono_V p L phi) = phi.
Proof.
  intros Hp HL Hphi. unfold mono_V, mono_inv_V. rewrite Rabs_pos_eq by exact Hphi.
  replace (L^4 * pypow phi p / L^4) with (pypow phi p) by (field; exact HL).
  apply pypow_root'; [exact Hphi|lra].
Qed.
Lemma quad_inv1 L v : L <> 0 -> 0 <= v -> quad_V L (quad_inv_V L v) = v.
Proof.
  intros HL Hv. unfold quad_V, quad_inv_V.
  transitivity (sqrt v * sqrt v); [field; exact HL|]. apply sqrt_sqrt; exact Hv.
Qed.
Lemma quad_inv2 L phi : L <> 0 -> 0 <= phi -> quad_inv_V L (quad_V L phi) = phi.
Proof.
  intros HL Hv. unfold quad_V, quad_inv_V.
  replace (L^4 * phi^2) with ((L^2*phi)^2) by ring.
  rewrite sqrt_pow2; [field; exact HL|]. apply Rmult_le_pos; [left; apply L2_gt0; exact HL|exact Hv].
Qed.
(* ----- Starobinsky ----- *)
Lemma sqrtL v L : L <> 0 -> 0 <= v -> (sqrt v / L^2)^2 = v / L^4.
Proof.
  intros HL Hv. transitivity (sqrt v * sqrt v / L^4); [field; exact HL|]. rewrite sqrt_sqrt by exact Hv. reflexivity.
Qed.
Lemma sqrtL_lt1 v L : L <> 0 -> 0 <= v < L^4 -> 0 <= sqrt v / L^2 < 1.
Proof.
  intros HL [Hv Hv2]. pose proof (L2_gt0 L HL) as H2. split.
  - apply Rdiv_le_0_compat; [apply sqrt_pos|exact H2].
  - apply Rmult_lt_reg_r with (L^2); [exact H2|]. unfold Rdiv. rewrite Rmult_assoc, Rinv_l, Rmult_1_r, Rmult_1_l by lra.
    replace (L^2) with (sqrt ((L^2)^2)) by (apply sqrt_pow2; lra).
    apply sqrt_lt_1; [exact Hv|apply pow2_ge_0|]. replace ((L^2)^2) with (L^4) by ring. exact Hv2.
Qed.
Lemma sqrtL_le1 v L : L <> 0 -> 0 <= v <= L^4 -> 0 <= sqrt v / L^2 <= 1.
Proof.
  intros HL [Hv Hv2]. destruct Hv2 as [Hv2|Hv2].
  - pose proof (sqrtL_lt1 v L HL (conj Hv Hv2)); lra.
  - rewrite Hv2. pose proof (L2_gt0 L HL). replace (L^4) with ((L^2)^2) by ring. rewrite sqrt_pow2 by lra.
    replace (L^2/L^2) with 1 by (field; exact HL). lra.
Qed.
Lemma star_inv1 L v : L <> 0 -> 0 <= v < L^4 -> star_V L (star_inv_V L v) = v.
Proof.
  intros HL Hv. unfold star_V, star_inv_V. pose proof gamma_gt0.
  pose proof (sqrtL_lt1 v L HL Hv) as [H1 H2].
  replace (- gamma * (- ln (1 - sqrt v / L ^ 2) / gamma)) with (ln (1 - sqrt v / L^2)) by (field; repeat match goal with |- _ /\ _ => split end; first [exact HL|lra]).
  rewrite exp_ln by lra. replace (1 - (1 - sqrt v / L^2)) with (sqrt v / L^2) by ring.
  rewrite sqrtL by tauto. field; exact HL.
Qed.
Lemma star_inv2 L phi : L <> 0 -> 0 <= phi -> star_inv_V L (star_V L phi) = phi.
Proof.
  intros HL Hp. unfold star_V, star_inv_V. pose proof gamma_gt0.
  assert (Hge : 0 <= 1 - exp (- gamma * phi)).
  { assert (exp (- gamma * phi) <= exp 0); [|rewrite exp_0 in H0; lra].
    destruct Hp as [Hp|<-]; [|right; f_equal; ring].
    left; apply exp_increasing. pose proof (Rmult_lt_0_compat _ _ H Hp). lra. }
  replace (L^4 * (1 - exp (- gamma * phi))^2) with ((L^2 * (1 - exp (- gamma * phi)))^2) by ring.
  rewrite sqrt_pow2 by (apply Rmult_le_pos; [left; apply L2_gt0; exact HL|exact Hge]).
  replace (1 - L ^ 2 * (1 - exp (- gamma * phi)) / L ^ 2) with (exp (- gamma * phi)) by (field; exact HL).
  rewrite ln_exp. field; lra.
Qed.
(* ----- natural ----- *)
Lemma nat_inv1 phi0 L v : 0 < phi0 -> L <> 0 -> 0 <= v <= L^4 -> nat_V phi0 L (nat_inv_V phi0 L v) = v.
Proof.
  intros H0 HL [Hv1 Hv2]. unfold nat_V, nat_inv_V. pose proof PI_RGT_0. pose proof (L4_gt0 L HL).
  set (w := 1 - 2 * v / L^4).
  replace (PI * (acos w * phi0 / PI) / phi0) with (acos w) by (field; lra).
  assert (v / L^4 <= 1). { apply Rmult_le_reg_r with (L^4); [assumption|]. unfold Rdiv; rewrite Rmult_assoc, Rinv_l by lra; lra. }
  assert (0 <= v / L^4) by (apply Rdiv_le_0_compat; lra).
  rewrite cos_acos.
  - unfold w. field; exact HL.
  - unfold w. replace (2 * v / L^4) with (2 * (v / L^4)) by (field; exact HL). lra.
Qed.
Lemma nat_inv2 phi0 L phi : 0 < phi0 -> L <> 0 -> 0 <= phi <= phi0 -> nat_inv_V phi0 L (nat_V phi0 L phi) = phi.
Proof.
  intros H0 HL [Hp1 Hp2]. unfold nat_V, nat_inv_V. pose proof PI_RGT_0.
  replace (1 - 2 * (L ^ 4 / 2 * (1 - cos (PI * phi / phi0))) / L ^ 4) with (cos (PI * phi / phi0)) by (field; exact HL).
  rewrite acos_cos; [field; lra|]. split.
  - apply Rdiv_le_0_compat; [apply Rmult_le_pos; lra|exact H0].
  - apply Rmult_le_reg_r with phi0; [exact H0|]. unfold Rdiv; rewrite Rmult_assoc, Rinv_l by lra.
    rewrite Rmult_1_r. apply Rmult_le_compat_l; lra.
Qed.
(* ----- double well ----- *)
Lemma dw_inv1 p phi0 L v : 0 < p -> 0 < phi0 -> L <> 0 -> 0 <= v <= L^4 ->
  dw_V p phi0 L (dw_inv_V p phi0 L v) = v.
Proof.
  intros Hp H0 HL Hv. unfold dw_V, dw_inv_V, dw_x. pose proof (sqrtL_le1 v L HL Hv) as [H1 H2].
  set (w := sqrt v / L^2) in *.
  replace (1 - (phi0 - phi0 * pypow (1 - w) (1/p)) / phi0) with (pypow (1 - w) (1/p)) by (field; lra).
  rewrite pypow_root by lra. replace (1 - (1 - w)) with w by ring. unfold w. rewrite sqrtL by tauto.
  field; exact HL.
Qed.
Lemma dw_inv2 p phi0 L phi : 0 < p -> 0 < phi0 -> L <> 0 -> 0 <= phi <= phi0 ->
  dw_inv_V p phi0 L (dw_V p phi0 L phi) = phi.
Proof.
  intros Hp H0 HL [Hp1 Hp2]. unfold dw_V, dw_inv_V.
  assert (Hx : 0 <= dw_x phi0 phi <= 1).
  { unfold dw_x. assert (0 <= phi / phi0) by (apply Rdiv_le_0_compat; lra).
    assert (phi / phi0 <= 1). { apply Rmult_le_reg_r with phi0; [exact H0|]. unfold Rdiv; rewrite Rmult_assoc, Rinv_l by lra; lra. }
    lra. }
  assert (Hy : 0 <= 1 - pypow (dw_x phi0 phi) p).
  { assert (pypow (dw_x phi0 phi) p <= pypow 1 p) by (apply pypow_incr_le; lra). rewrite pypow_1_l in H. lra. }
  replace (L^4 * (1 - pypow (dw_x phi0 phi) p)^2) with ((L^2 * (1 - pypow (dw_x phi0 phi) p))^2) by ring.
  rewrite sqrt_pow2 by (apply Rmult_le_pos; [left; apply L2_gt0; exact HL|exact Hy]).
  replace (1 - L ^ 2 * (1 - pypow (dw_x phi0 phi) p) / L ^ 2) with (pypow (dw_x phi0 phi) p) by (field; exact HL).
  rewrite pypow_root' by lra. unfold dw_x. field; lra.
Qed.
(* ----- T-model ----- *)
Lemma tanh_arctanh x : -1 < x < 1 -> tanh (np_arctanh x) = x.
Proof.
  intros Hx. unfold np_arctanh, tanh, sinh, cosh.
  set (q := (1 + x) / (1 - x)). assert (Hq : 0 < q) by (apply Rdiv_lt_0_compat; lra).
  set (e := exp (ln q / 2)).
  assert (He : 0 < e) by apply exp_pos.
  assert (E2 : e * e = q). { unfold e. rewrite <- exp_plus. replace (ln q / 2 + ln q / 2) with (ln q) by field. apply exp_ln; exact Hq. }
  rewrite exp_Ropp. fold e.
  transitivity ((e*e - 1)/(e*e+1)).
  - field. repeat split; nra.
  - rewrite E2. unfold q. field. repeat split; lra.
Qed.
Lemma arctanh_tanh u : np_arctanh (tanh u) = u.
Proof.
  unfold np_arctanh, tanh, sinh, cosh. rewrite exp_Ropp. pose proof (exp_pos u).
  replace ((1 + (exp u - / exp u) / 2 / ((exp u + / exp u) / 2)) / (1 - (exp u - / exp u) / 2 / ((exp u + / exp u) / 2)))
    with (exp u * exp u).
  - rewrite <- exp_plus, ln_exp. field.
  - assert (0 < exp u * exp u) by (apply Rmult_lt_0_compat; assumption).
    field. repeat split; nra.
Qed.
Lemma tm_ratio v L p : 0 < p -> 0 < L -> 0 <= v -> pypow v (1/(2*p)) / pypow L (2/p) = pypow (v / L^4) (1/(2*p)).
Proof.
  intros Hp HL Hv. destruct (Req_EM_T v 0) as [->|Hn].
  - replace (0 / L^4) with 0 by (field; lra). assert (1/(2*p) <> 0) by (apply Rgt_not_eq; apply Rdiv_lt_0_compat; lra).
    rewrite pypow_0_l by assumption. unfold Rdiv; ring.
  - assert (0 < v) by lra. assert (0 < v / L^4) by (apply Rdiv_lt_0_compat; [lra|apply pow_lt; exact HL]).
    rewrite !pypow_pos by assumption. unfold Rpower.
    replace (ln (v / L^4)) with (ln v - 4 * ln L).
    + unfold Rdiv at 1. rewrite <- exp_Ropp, <- exp_plus. f_equal. field; lra.
    + rewrite ln_div by (try apply pow_lt; lra). f_equal. replace (L^4) with ((L*L)*(L*L)) by ring.
      rewrite !ln_mult by (try apply Rmult_lt_0_compat; assumption). ring.
Qed.
Lemma div_lt1 v w : 0 < w -> 0 <= v < w -> 0 <= v / w < 1.
Proof.
  intros Hw [H1 H2]. split; [apply Rdiv_le_0_compat; assumption|].
  apply Rmult_lt_reg_r with w; [exact Hw|]. unfold Rdiv; rewrite Rmult_assoc, Rinv_l by lra; lra.
Qed.
Lemma tm_inv1 p alpha L v : 0 < p -> 0 < alpha -> 0 < L -> 0 <= v < L^4 ->
  tm_V p alpha L (tm_inv_V p alpha L v) = v.
Proof.
  intros Hp Ha HL Hv. unfold tm_V, tm_inv_V, tm_C. pose proof (s6a_gt0 alpha Ha) as Hs.
  assert (H4 : 0 < L^4) by (apply pow_lt; exact HL).
  replace (s_6_a alpha * np_arctanh (pypow v (1 / (2 * p)) / pypow L (2 / p)) / s_6_a alpha)
    with (np_arctanh (pypow v (1 / (2 * p)) / pypow L (2 / p))) by (field; repeat match goal with |- _ /\ _ => split end; first [lra|apply Rgt_not_eq, pypow_gt0; exact HL]).
  rewrite tm_ratio by tauto. pose proof (div_lt1 v (L^4) H4 Hv) as [H1 H2].
  assert (0 < 1/(2*p)) by (apply Rdiv_lt_0_compat; lra).
  rewrite tanh_arctanh.
  - rewrite pypow_root by lra. field; lra.
  - assert (pypow (v/L^4) (1/(2*p)) < pypow 1 (1/(2*p))) by (apply pypow_incr; assumption).
    rewrite pypow_1_l in H0. pose proof (pypow_ge0 (v/L^4) (1/(2*p)) H1). lra.
Qed.
Lemma tm_inv2 p alpha L phi : 0 < p -> 0 < alpha -> 0 < L -> 0 <= phi ->
  tm_inv_V p alpha L (tm_V p alpha L phi) = phi.
Proof.
  intros Hp Ha HL Hphi. unfold tm_V, tm_inv_V. pose proof (s6a_gt0 alpha Ha) as Hs.
  assert (H4 : 0 < L^4) by (apply pow_lt; exact HL).
  assert (HC : 0 <= tm_C alpha phi).
  { unfold tm_C. destruct Hphi as [Hphi|<-].
    - left; apply tanh_gt0, Rdiv_lt_0_compat; assumption.
    - right. unfold Rdiv; rewrite Rmult_0_l. unfold tanh. rewrite sinh_0. unfold Rdiv; ring. }
  rewrite tm_ratio; [|assumption|assumption|apply Rmult_le_pos; [lra|apply pypow_ge0; exact HC]].
  replace (L^4 * pypow (tm_C alpha phi) (2*p) / L^4) with (pypow (tm_C alpha phi) (2*p)) by (field; lra).
  rewrite pypow_root' by lra. unfold tm_C. rewrite arctanh_tanh. field; lra.
Qed.
(* ----- radion gauge ----- *)
Lemma rg_inv1 p alpha L v : 0 < p -> 0 < alpha -> L <> 0 -> 0 < v < L^4 ->
  rg_V p alpha L (rg_inv_V p alpha L v) = v.
Proof.
  intros Hp Ha HL [Hv1 Hv2]. unfold rg_V, rg_inv_V. pose proof (L4_gt0 L HL) as H4.
  assert (Hd : 0 < L^4 / v - 1).
  { replace (L^4/v - 1) with ((L^4 - v)/v) by (field; lra). apply Rdiv_lt_0_compat; lra. }
  assert (Hq : 0 < alpha / (L^4/v - 1)) by (apply Rdiv_lt_0_compat; assumption).
  rewrite pypow_root; [|left; exact Hq|lra].
  assert (E : L^4/v - 1 = (L^4 - v)/v) by (field; lra). rewrite E in *.
  set (w := L^4) in *. clearbody w.
  field. repeat match goal with |- _ /\ _ => split end; first [lra | nra].
Qed.
Lemma rg_inv2 p alpha L phi : 0 < p -> 0 < alpha -> L <> 0 -> 0 < phi ->
  rg_inv_V p alpha L (rg_V p alpha L phi) = phi.
Proof.
  intros Hp Ha HL Hphi. unfold rg_V, rg_inv_V. pose proof (pypow_gt0 phi p Hphi) as Hy.
  replace (alpha / (L ^ 4 / (L ^ 4 * pypow phi p / (alpha + pypow phi p)) - 1)) with (pypow phi p).
  - apply pypow_root'; lra.
  - field. repeat split; try lra; exact HL.
Qed.

Lemma inv_V_right P L v : featureless P -> valid P -> attainable P L v -> V P L (inv_V P L v) = v.
Proof.
  destruct P; simpl; intros HF Hv Ha; try contradiction;
  first [ apply quad_inv1; tauto | apply mono_inv1; (tauto || lra) | apply star_inv1; tauto | apply nat_inv1; tauto
        | apply dw_inv1; (tauto || lra) | apply tm_inv1; tauto | apply rg_inv1; (tauto || lra) ].
Qed.
Lemma inv_V_left P L phi : featureless P -> valid P -> 0 < L -> branch P phi ->
  inv_V P L (V P L phi) = phi.
Proof.
  destruct P; simpl; intros HF Hv HL Hb; try contradiction;
  first [ apply quad_inv2; lra | apply mono_inv2; lra | apply star_inv2; lra | apply nat_inv2; lra
        | apply dw_inv2; lra | apply tm_inv2; lra | apply rg_inv2; lra ].
Qed.
