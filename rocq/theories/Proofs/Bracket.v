(** Monotonicity of epsilon_1V on the inflating branch and the sign changes in the brackets handed
    to root_scalar. *)
From Coq Require Import Reals ZArith Lra Lia.
From Coquelicot Require Import Coquelicot.
From Verif Require Import Base Model.Potentials Model.SlowRoll Spec.PotentialSpec Spec.SlowRollSpec
  Proofs.BaseLemmas Proofs.PhiEnd.
Open Scope R_scope.

Lemma quot_decr c g h : 0 < c -> 0 < g -> g < h -> c / (h * h) < c / (g * g).
Proof.
  intros Hc Hg Hh. unfold Rdiv. apply Rmult_lt_compat_l; [exact Hc|]. apply Rinv_lt_contravar.
  - apply Rmult_lt_0_compat; apply Rmult_lt_0_compat; lra.
  - apply Rmult_gt_0_lt_compat; lra.
Qed.
Lemma pow_lt_base x y q : 0 < q -> 0 < x -> x < y -> pypow x q < pypow y q.
Proof. intros Hq Hx Hy. rewrite !pypow_pos by lra. unfold Rpower. apply exp_increasing. apply Rmult_lt_compat_l; [exact Hq|]. apply ln_increasing; assumption. Qed.
Lemma pow_le_base x y q : 0 <= q -> 0 < x -> x < y -> pypow x q <= pypow y q.
Proof.
  intros Hq Hx Hy. destruct (Req_dec q 0) as [->|N]; [rewrite !pypow_pos by lra; unfold Rpower; rewrite !Rmult_0_l; lra|].
  left. apply pow_lt_base; lra.
Qed.
Lemma pow_lt1 x q : 0 < q -> 0 < x < 1 -> pypow x q < 1.
Proof.
  intros Hq [H0 H1]. rewrite pypow_pos by lra. unfold Rpower. rewrite <- exp_0. apply exp_increasing.
  assert (ln x < 0) by (rewrite <- ln_1; apply ln_increasing; lra). nra.
Qed.

(** double well, in terms of x = 1 - phi/phi0 *)
Definition dwe (p x : R) : R := pypow x (p - 1) / (1 - pypow x p).
Lemma dw_eps1_dwe p phi0 phi : 0 < phi0 -> 0 < p -> 0 < phi < phi0 -> dw_eps1 p phi0 phi = 2 * p^2 / phi0^2 * (dwe p (dw_x phi0 phi))^2.
Proof.
  intros H0 Hp HB. unfold dw_eps1, dwe. set (x := dw_x phi0 phi).
  assert (Hx : 0 < x < 1).
  { unfold x, dw_x. assert (0 < phi / phi0 < 1). { split; [apply Rdiv_lt_0_compat; lra|]. apply Rmult_lt_reg_r with phi0; [lra|]. field_simplify; lra. } lra. }
  pose proof (pow_lt1 x p Hp Hx).
  assert (E : pypow x (2 * p - 2) = (pypow x (p - 1))^2).
  { rewrite !pypow_pos by lra. replace (2 * p - 2) with ((p - 1) + (p - 1)) by ring. rewrite Rpower_plus. ring. }
  rewrite E. field. split; lra.
Qed.
Lemma dwe_incr p x y : 1 <= p -> 0 < x -> x < y -> y < 1 -> 0 < dwe p x < dwe p y.
Proof.
  intros Hp Hx Hy H1. unfold dwe.
  pose proof (pow_le_base x y (p-1) ltac:(lra) Hx Hy). pose proof (pow_lt_base x y p ltac:(lra) Hx Hy).
  pose proof (pow_lt1 y p ltac:(lra) ltac:(lra)). pose proof (pypow_gt0 x (p-1) Hx).
  split; [apply Rdiv_lt_0_compat; lra|]. unfold Rdiv.
  apply Rle_lt_trans with (pypow y (p - 1) * / (1 - pypow x p)).
  - apply Rmult_le_compat_r; [left; apply Rinv_0_lt_compat; lra|assumption].
  - apply Rmult_lt_compat_l; [apply pypow_gt0; lra|]. apply Rinv_lt_contravar; [apply Rmult_lt_0_compat; lra|lra].
Qed.

Lemma dw_decr p phi0 a b : 1 <= p -> 0 < phi0 -> 0 < a -> a < b -> b < phi0 -> dw_eps1 p phi0 b < dw_eps1 p phi0 a.
Proof.
  intros Hp H0 Ha Hab Hb. rewrite !dw_eps1_dwe by lra. apply Rmult_lt_compat_l.
  - apply Rdiv_lt_0_compat; [|nra]. assert (0 < p^2) by nra. lra.
  - assert (X : 0 < dw_x phi0 b /\ dw_x phi0 b < dw_x phi0 a /\ dw_x phi0 a < 1).
    { unfold dw_x. assert (0 < a / phi0) by (apply Rdiv_lt_0_compat; lra).
      assert (a / phi0 < b / phi0) by (apply Rmult_lt_compat_r; [apply Rinv_0_lt_compat; lra|lra]).
      assert (b / phi0 < 1) by (apply Rmult_lt_reg_r with phi0; [lra|field_simplify; lra]). lra. }
    destruct X as [X1 [X2 X3]]. pose proof (dwe_incr p _ _ Hp X1 X2 X3). nra.
Qed.

Lemma eps1_decr P a b : featureless P -> valid P -> (forall p phi0, P = DoubleWell p phi0 -> 1 <= p) ->
  branch P a -> branch P b -> a < b -> eps1V P b < eps1V P a.
Proof.
  intros HF HV HD HA HB Hab.
  assert (MO : forall p, 0 < p -> 0 < a -> 0 < b -> mono_eps1 p b < mono_eps1 p a).
  { intros p Hp Ha Hb. unfold mono_eps1. replace (p^2 / (2 * b^2)) with ((p^2/2) / (b*b)) by (field; lra).
    replace (p^2 / (2 * a^2)) with ((p^2/2) / (a*a)) by (field; lra). apply quot_decr; nra. }
  assert (RG : forall p alpha, 0 < p -> 0 < alpha -> 0 < a -> rg_eps1 p alpha b < rg_eps1 p alpha a).
  { intros p alpha Hp Hal Ha. unfold rg_eps1.
    pose proof (pypow_gt0 a p Ha). pose proof (pow_lt_base a b p Hp Ha Hab).
    replace (alpha^2 * p^2 / (2 * b^2 * (alpha + pypow b p)^2)) with ((alpha^2 * p^2 / 2) / ((b * (alpha + pypow b p)) * (b * (alpha + pypow b p)))) by (field; lra).
    replace (alpha^2 * p^2 / (2 * a^2 * (alpha + pypow a p)^2)) with ((alpha^2 * p^2 / 2) / ((a * (alpha + pypow a p)) * (a * (alpha + pypow a p)))) by (field; lra).
    apply quot_decr.
    - apply Rdiv_lt_0_compat; [|lra]. apply Rmult_lt_0_compat; nra.
    - apply Rmult_lt_0_compat; lra.
    - apply Rmult_gt_0_lt_compat; lra. }
  destruct P; simpl in HF, HV, HA, HB; try contradiction; unfold eps1V; try (apply MO; lra); try (apply RG; lra).
  - (* Starobinsky *)
    unfold star_eps1.
    assert (G : 0 < gamma) by (unfold gamma; apply sqrt_lt_R0; lra).
    assert (E1 : 1 < exp (gamma * a)) by (rewrite <- exp_0; apply exp_increasing; apply Rmult_lt_0_compat; lra).
    assert (E2 : exp (gamma * a) < exp (gamma * b)) by (apply exp_increasing; apply Rmult_lt_compat_l; lra).
    replace (2 * gamma^2 / (1 - exp (gamma * b))^2) with (2 * gamma^2 / ((exp (gamma * b) - 1) * (exp (gamma * b) - 1))) by (field; lra).
    replace (2 * gamma^2 / (1 - exp (gamma * a))^2) with (2 * gamma^2 / ((exp (gamma * a) - 1) * (exp (gamma * a) - 1))) by (field; lra).
    apply quot_decr; nra.
  - (* Natural *)
    unfold nat_eps1. pose proof PI_RGT_0.
    assert (T : forall x, 0 < x < phi0 -> 0 < PI * x / phi0 < PI).
    { intros x Hx. split; [apply Rdiv_lt_0_compat; [apply Rmult_lt_0_compat; lra|lra]|].
      apply Rmult_lt_reg_r with phi0; [lra|]. replace (PI * x / phi0 * phi0) with (PI * x) by (field; lra). apply Rmult_lt_compat_l; lra. }
    pose proof (T a HA) as TA. pose proof (T b HB) as TB.
    assert (LT : PI * a / phi0 < PI * b / phi0) by (apply Rmult_lt_compat_r; [apply Rinv_0_lt_compat; lra|apply Rmult_lt_compat_l; lra]).
    assert (C : cos (PI * b / phi0) < cos (PI * a / phi0)) by (apply cos_decreasing_1; lra).
    assert (C1 : cos (PI * a / phi0) < 1) by (rewrite <- cos_0; apply cos_decreasing_1; lra).
    assert (C2 : -1 < cos (PI * b / phi0)) by (rewrite <- cos_PI; apply cos_decreasing_1; lra).
    assert (S : forall x, cos x < 1 -> PI^2 * (sin x)^2 / (2 * phi0^2 * (cos x - 1)^2) = PI^2 / (2 * phi0^2) * ((1 + cos x) / (1 - cos x))).
    { intros x Hx. replace ((sin x)^2) with ((1 + cos x) * (1 - cos x)).
      - field. split; lra.
      - pose proof (sin2_cos2 x). unfold Rsqr in *. lra. }
    rewrite !S by lra. apply Rmult_lt_compat_l.
    + apply Rdiv_lt_0_compat; nra.
    + set (u := cos (PI * b / phi0)) in *. set (v := cos (PI * a / phi0)) in *. clearbody u v.
      apply Rmult_lt_reg_r with ((1 - u) * (1 - v)); [apply Rmult_lt_0_compat; lra|].
      replace ((1 + u) / (1 - u) * ((1 - u) * (1 - v))) with ((1 + u) * (1 - v)) by (field; lra).
      replace ((1 + v) / (1 - v) * ((1 - u) * (1 - v))) with ((1 + v) * (1 - u)) by (field; lra). lra.
  - apply dw_decr; try lra. eapply HD; reflexivity.
  - apply dw_decr; lra.
  - apply dw_decr; lra.
  - (* Tmodel *)
    unfold tm_eps1.
    assert (G : 0 < s_6_a alpha) by (unfold s_6_a; apply sqrt_lt_R0; lra).
    set (s := s_6_a alpha) in *. clearbody s.
    assert (A0 : 0 < 2 * a / s) by (apply Rdiv_lt_0_compat; lra).
    assert (AB : 2 * a / s < 2 * b / s) by (apply Rmult_lt_compat_r; [apply Rinv_0_lt_compat; lra|lra]).
    assert (S1 : 0 < sinh (2 * a / s)) by (rewrite <- sinh_0; apply sinh_lt; exact A0).
    assert (S2 : sinh (2 * a / s) < sinh (2 * b / s)) by (apply sinh_lt; exact AB).
    replace (8 * p^2 / (s^2 * (sinh (2 * b / s))^2)) with ((8 * p^2 / s^2) / (sinh (2 * b / s) * sinh (2 * b / s))) by (field; lra).
    replace (8 * p^2 / (s^2 * (sinh (2 * a / s))^2)) with ((8 * p^2 / s^2) / (sinh (2 * a / s) * sinh (2 * a / s))) by (field; lra).
    apply quot_decr; try assumption. apply Rdiv_lt_0_compat; nra.
Qed.

(** ** brackets *)
Lemma EPS_val : EPS * 2^52 = 1.
Proof. unfold EPS. field. Qed.
Lemma EPS_small : 0 < EPS <= / 4.
Proof.
  pose proof EPS_pos as H. split; [lra|]. unfold EPS. apply Rinv_le_contravar; [lra|].
  replace 4 with (2^2) by ring. apply Rle_pow; [lra|lia].
Qed.
Lemma ln_lower e : 0 < e <= / 4 -> - (e / (1 - e)) <= ln (1 - e).
Proof.
  intros H. assert (E : ln (1 - e) = - ln (/ (1 - e))) by (rewrite ln_Rinv by lra; ring). rewrite E. apply Ropp_le_contravar.
  replace (e / (1 - e)) with (/ (1 - e) - 1) by (field; lra).
  assert (I : 0 < / (1 - e)) by (apply Rinv_0_lt_compat; lra).
  pose proof (exp_ineq1_le (ln (/ (1 - e)))) as X. rewrite exp_ln in X by exact I. lra.
Qed.
Lemma exp_ge u : 1 + u <= exp u. Proof. apply exp_ineq1_le. Qed.

(** at the lower end of the double-well bracket epsilon_1 is at least 2 *)
Lemma dw_lower p phi0 : 1 <= p <= 2^50 -> 0 < phi0 <= 2^51 -> 2 <= dw_eps1 p phi0 (EPS * phi0).
Proof.
  intros Hp H0. pose proof EPS_small as HE. pose proof EPS_val as HV.
  assert (B : 0 < EPS * phi0 < phi0) by (split; [apply Rmult_lt_0_compat; lra|nra]).
  rewrite dw_eps1_dwe by lra.
  assert (X : dw_x phi0 (EPS * phi0) = 1 - EPS) by (unfold dw_x; field; lra). rewrite X.
  set (e := EPS) in *. pose proof (ln_lower e HE) as LN.
  assert (LNe : e / (1 - e) <= 2 * e) by (apply Rmult_le_reg_r with (1 - e); [lra|]; replace (e / (1 - e) * (1 - e)) with e by (field; lra); nra).
  assert (XP : 1 - p * (e / (1 - e)) <= pypow (1 - e) p).
  { rewrite pypow_pos by lra. unfold Rpower. eapply Rle_trans; [|apply exp_ge]. nra. }
  assert (XP2 : 1/2 <= pypow (1 - e) p).
  { eapply Rle_trans; [|exact XP]. assert (p * (e / (1 - e)) <= 2^50 * (2 * e)) by (apply Rmult_le_compat; try lra; apply Rlt_le, Rdiv_lt_0_compat; lra).
    assert (2^50 * (2 * e) = 1/2) by (replace (2^52) with (2^50 * 4) in HV by ring; lra). lra. }
  assert (X1 : pypow (1 - e) p < 1) by (apply pow_lt1; lra).
  assert (DW : pypow (1 - e) (p - 1) / (1 - pypow (1 - e) p) = dwe p (1 - e)) by reflexivity.
  assert (M1 : pypow (1 - e) (p - 1) = pypow (1 - e) p / (1 - e)).
  { rewrite !pypow_pos by lra. replace p with ((p - 1) + 1) at 2 by ring. rewrite Rpower_plus, (Rpower_1 (1 - e)) by lra. field. lra. }
  assert (G : / (2 * (p * e)) <= dwe p (1 - e)).
  { unfold dwe. rewrite M1. set (X' := pypow (1 - e) p) in *.
    assert (D : 0 < 1 - X') by lra. assert (D2 : 1 - X' <= p * (e / (1 - e))) by lra.
    apply Rmult_le_reg_r with ((1 - X') * (1 - e)); [apply Rmult_lt_0_compat; lra|].
    replace (X' / (1 - e) / (1 - X') * ((1 - X') * (1 - e))) with X' by (field; lra).
    apply Rle_trans with (/ (2 * (p * e)) * (p * (e / (1 - e)) * (1 - e))).
    - apply Rmult_le_compat_l; [left; apply Rinv_0_lt_compat; nra|]. apply Rmult_le_compat_r; lra.
    - replace (/ (2 * (p * e)) * (p * (e / (1 - e)) * (1 - e))) with (1/2) by (field; split; lra). exact XP2. }
  assert (PE : 0 < / (2 * (p * e))) by (apply Rinv_0_lt_compat; nra).
  apply Rle_trans with (2 * p^2 / phi0^2 * (/ (2 * (p * e)))^2).
  - replace (2 * p^2 / phi0^2 * (/ (2 * (p * e)))^2) with (/ (2 * ((phi0 * e) * (phi0 * e)))) by (field; split; [lra|split; lra]).
    assert (PH : 0 < phi0 * e) by (apply Rmult_lt_0_compat; lra).
    assert (PH2 : phi0 * e <= 1/2). { assert (phi0 * e <= 2^51 * e) by (apply Rmult_le_compat_r; lra). replace (2^52) with (2^51 * 2) in HV by ring. lra. }
    rewrite <- (Rinv_inv 2) at 1. apply Rinv_le_contravar; [nra|]. nra.
  - apply Rmult_le_compat_l; [left; apply Rdiv_lt_0_compat; nra|]. nra.
Qed.
Lemma dw_upper p phi0 : 1 < p -> 0 < phi0 -> dw_eps1 p phi0 phi0 = 0.
Proof.
  intros Hp H0. unfold dw_eps1. replace (dw_x phi0 phi0) with 0 by (unfold dw_x; field; lra).
  assert (E : pypow 0 (2 * p - 2) = 0). { unfold pypow. destruct (Rlt_dec 0 0); [lra|]. destruct (Req_EM_T 0 0); [|lra]. destruct (Req_EM_T (2 * p - 2) 0); [lra|reflexivity]. }
  rewrite E. unfold Rdiv. ring.
Qed.

(** ** continuity on the brackets *)
Definition ppow (q x : R) : R := if Rlt_dec 0 x then Rpower x q else 0.
Lemma ppow_pypow q x : 0 < q -> 0 <= x -> ppow q x = pypow x q.
Proof.
  intros Hq Hx. unfold ppow, pypow. destruct (Rlt_dec 0 x); [reflexivity|]. destruct (Req_EM_T x 0); [|lra].
  destruct (Req_EM_T q 0); [lra|reflexivity].
Qed.
Lemma ppow_cont q (x : R) : 0 < q -> continuous (ppow q) x.
Proof.
  intros Hq. destruct (Rtotal_order x 0) as [H|[->|H]].
  - apply (continuous_ext_loc (ppow q) (fun _ => 0)); [|apply continuous_const].
    exists (mkposreal (- x) ltac:(lra)). intros y Hy. unfold ppow. destruct (Rlt_dec 0 y); [|reflexivity].
    change (Rabs (y - x) < - x) in Hy. apply Rabs_def2 in Hy. lra.
  - apply continuity_pt_filterlim. intros eps Heps. exists (Rpower eps (1/q)). split; [apply exp_pos|].
    intros y [_ Hy]. unfold dist, R_met, R_dist in *. simpl in Hy. rewrite Rminus_0_r in Hy.
    unfold ppow. destruct (Rlt_dec 0 0) as [C|_]; [exfalso; lra|]. rewrite Rminus_0_r.
    destruct (Rlt_dec 0 y) as [Hp|_]; [|rewrite Rabs_R0; exact Heps].
    rewrite (Rabs_pos_eq y) in Hy by lra.
    rewrite Rabs_pos_eq by (left; apply exp_pos). replace eps with (Rpower (Rpower eps (1/q)) q).
    + unfold Rpower at 1 2. apply exp_increasing. apply Rmult_lt_compat_l; [exact Hq|]. apply ln_increasing; assumption.
    + rewrite Rpower_mult. replace (1 / q * q) with 1 by (field; lra). apply Rpower_1. exact Heps.
  - apply (continuous_ext_loc (ppow q) (fun y => exp (q * ln y))).
    + exists (mkposreal x H). intros y Hy. change (Rabs (y - x) < x) in Hy. apply Rabs_def2 in Hy.
      unfold ppow. destruct (Rlt_dec 0 y); [reflexivity|lra].
    + apply (ex_derive_continuous (fun y : R => exp (q * ln y))). auto_derive. exact H.
Qed.

Lemma cont_on_ext f g a b : (forall x, a <= x <= b -> continuous g x) -> (forall x, a <= x <= b -> f x = g x) -> cont_on f a b.
Proof.
  intros HC HE x Hx eps Heps. pose proof (HC x Hx) as C. apply continuity_pt_filterlim in C.
  destruct (C eps Heps) as [d [Hd Q]]. exists d. split; [exact Hd|]. intros y Hy Hyx.
  rewrite (HE x Hx), (HE y Hy). destruct (Req_dec x y) as [->|N]; [unfold Rminus; rewrite Rplus_opp_r, Rabs_R0; exact Heps|].
  apply (Q y). split; [split; [exact I|exact N]|exact Hyx].
Qed.

Lemma dw_cont p phi0 a : 1 < p -> 0 < phi0 -> 0 < a -> a < phi0 -> cont_on (fun phi => dw_eps1 p phi0 phi - 1) a phi0.
Proof.
  intros Hp H0 Ha Hb.
  assert (X : forall phi, a <= phi <= phi0 -> 0 <= dw_x phi0 phi < 1).
  { intros phi Hphi. unfold dw_x. assert (0 < phi / phi0 <= 1); [|lra]. split; [apply Rdiv_lt_0_compat; lra|].
    apply Rmult_le_reg_r with phi0; [lra|]. field_simplify; lra. }
  apply (cont_on_ext _ (fun phi => 2 * p^2 * ppow (2*p-2) (dw_x phi0 phi) / (phi0^2 * (ppow p (dw_x phi0 phi) - 1)^2) - 1)).
  - intros phi Hphi. pose proof (X phi Hphi) as HX.
    assert (CX : continuous (dw_x phi0) phi) by (unfold dw_x; apply (ex_derive_continuous (fun phi : R => 1 - phi / phi0)); auto_derive; lra).
    assert (NZ : ppow p (dw_x phi0 phi) <> 1).
    { rewrite ppow_pypow by lra. unfold pypow. destruct (Rlt_dec 0 (dw_x phi0 phi)) as [h|h].
      - pose proof (pow_lt1 (dw_x phi0 phi) p ltac:(lra) ltac:(lra)) as Q. rewrite pypow_pos in Q by lra. lra.
      - destruct (Req_EM_T (dw_x phi0 phi) 0); [|lra]. destruct (Req_EM_T p 0); lra. }
    assert (CP : forall q, 0 < q -> continuous (fun t => ppow q (dw_x phi0 t)) phi).
    { intros q Hq. apply (continuous_comp (dw_x phi0) (ppow q)); [exact CX|apply ppow_cont; exact Hq]. }
    apply continuity_pt_filterlim.
    assert (C1 := CP (2*p-2) ltac:(lra)). assert (C2 := CP p ltac:(lra)).
    apply continuity_pt_filterlim in C1, C2.
    apply continuity_pt_minus; [|apply continuity_pt_const; intros u v; reflexivity].
    apply (continuity_pt_div (fun phi => 2 * p^2 * ppow (2*p-2) (dw_x phi0 phi)) (fun phi => phi0^2 * (ppow p (dw_x phi0 phi) - 1)^2)).
    + apply continuity_pt_mult; [apply continuity_pt_const; intros u v; reflexivity|exact C1].
    + apply continuity_pt_mult; [apply continuity_pt_const; intros u v; reflexivity|].
      apply (continuity_pt_comp (fun phi => ppow p (dw_x phi0 phi) - 1) (fun t => t^2)).
      * apply continuity_pt_minus; [exact C2|apply continuity_pt_const; intros u v; reflexivity].
      * apply derivable_continuous_pt. apply derivable_pt_pow.
    + apply Rmult_integral_contrapositive. split; [apply pow_nonzero; lra|apply pow_nonzero; lra].
  - intros phi Hphi. pose proof (X phi Hphi). unfold dw_eps1. rewrite !ppow_pypow by lra. reflexivity.
Qed.

(** RadionGauge *)
Lemma rg_cont p alpha a b : 0 < p -> 0 < alpha -> 0 < a -> cont_on (fun phi => rg_eps1 p alpha phi - 1) a b.
Proof.
  intros Hp Hal Ha. apply (cont_on_ext _ (fun phi => alpha^2 * p^2 / (2 * phi^2 * (alpha + exp (p * ln phi))^2) - 1)).
  - intros x Hx. apply (ex_derive_continuous (fun phi : R => alpha^2 * p^2 / (2 * phi^2 * (alpha + exp (p * ln phi))^2) - 1)). auto_derive. pose proof (exp_pos (p * ln x)).
    split; [lra|]. split; [|exact I]. 
    assert (0 < (2 * (x * (x * 1))) * ((alpha + exp (p * ln x)) * ((alpha + exp (p * ln x)) * 1))); [|lra].
    apply Rmult_lt_0_compat; [nra|]. apply Rmult_lt_0_compat; [lra|]. lra.
  - intros x Hx. unfold rg_eps1. rewrite pypow_pos by lra. reflexivity.
Qed.
Lemma rg_inv_val p alpha L d : 0 < p -> 0 < alpha -> L <> 0 -> 0 < d < 1 ->
  pypow (rg_inv_V p alpha L (L^4 * (1 - d))) p = alpha * (1 - d) / d.
Proof.
  intros Hp Hal HL Hd. unfold rg_inv_V. assert (L4 : 0 < L^4) by (replace (L^4) with ((L^2)^2) by ring; apply pow_lt; nra).
  replace (alpha / (L^4 / (L^4 * (1 - d)) - 1)) with (alpha * (1 - d) / d) by (field; repeat split; lra).
  assert (0 < alpha * (1 - d) / d) by (apply Rdiv_lt_0_compat; [apply Rmult_lt_0_compat; lra|lra]).
  rewrite (pypow_pos _ (1/p)) by assumption. rewrite pypow_pos by apply exp_pos. rewrite Rpower_mult.
  replace (1 / p * p) with 1 by (field; lra). apply Rpower_1. assumption.
Qed.
Lemma pow_ge1 x p : 0 < p -> 0 < x -> 1 <= pypow x p -> 1 <= x.
Proof.
  intros Hp Hx H. destruct (Rle_dec 1 x) as [h|h]; [exact h|]. exfalso. pose proof (pow_lt1 x p Hp ltac:(lra)). lra.
Qed.
Lemma rg_upper p alpha L : 0 < p <= 2^52 -> / 2^51 <= alpha -> L <> 0 ->
  let u := rg_inv_V p alpha L (L^4 * (1 - EPS)) in 1 <= u /\ rg_eps1 p alpha u < 1.
Proof.
  intros Hp Hal HL u. pose proof EPS_small as HE. pose proof EPS_val as HV.
  assert (A0 : 0 < / 2^51) by (apply Rinv_0_lt_compat, pow_lt; lra).
  assert (U0 : 0 < u) by (apply rg_inv_pos; lra).
  assert (UP : pypow u p = alpha * (1 - EPS) / EPS) by (apply rg_inv_val; lra).
  assert (A2 : 2 * EPS <= alpha). { eapply Rle_trans; [|exact Hal]. right. unfold EPS. replace (2^52) with (2 * 2^51) by ring. field. }
  assert (U1 : 1 <= u).
  { apply (pow_ge1 u p); try lra. rewrite UP. apply Rmult_le_reg_r with EPS; [lra|].
    replace (alpha * (1 - EPS) / EPS * EPS) with (alpha * (1 - EPS)) by (field; lra). nra. }
  split; [exact U1|]. unfold rg_eps1. rewrite UP.
  replace (alpha^2 * p^2 / (2 * u^2 * (alpha + alpha * (1 - EPS) / EPS)^2)) with ((p * EPS)^2 / (2 * u^2)) by (field; repeat split; lra).
  assert (P1 : p * EPS <= 1) by (rewrite <- HV, Rmult_comm; apply Rmult_le_compat_l; lra).
  assert (P0 : 0 < p * EPS) by (apply Rmult_lt_0_compat; lra).
  apply Rmult_lt_reg_r with (2 * u^2); [nra|]. replace ((p * EPS)^2 / (2 * u^2) * (2 * u^2)) with ((p * EPS)^2) by (field; lra). nra.
Qed.
Lemma rg_lower p alpha : / 10^3 <= p -> / 2^51 <= alpha -> 1 < rg_eps1 p alpha (/ 10^30).
Proof.
  intros Hp Hal. set (d := / 10^30).
  assert (D0 : 0 < d) by (apply Rinv_0_lt_compat, pow_lt; lra).
  assert (DV : d * 10^30 = 1) by (unfold d; field).
  assert (A0 : 0 < / 2^51) by (apply Rinv_0_lt_compat, pow_lt; lra).
  assert (P0 : 0 < / 10^3) by (apply Rinv_0_lt_compat, pow_lt; lra).
  assert (D1 : d < 1) by lra.
  assert (Q : 0 < pypow d p < 1) by (split; [apply pypow_gt0; exact D0|apply pow_lt1; lra]).
  assert (K : 2 * (d * (alpha + pypow d p)) < alpha * p).
  { apply Rlt_le_trans with (2 * (d * (alpha + 1))); [nra|].
    apply Rle_trans with (alpha * / 10^3); [|apply Rmult_le_compat_l; lra].
    assert (E1 : alpha * (2^51) >= 1). { apply Rle_ge. rewrite <- (Rinv_l (2^51)) by (apply pow_nonzero; lra). apply Rmult_le_compat_r; [left; apply pow_lt; lra|exact Hal]. }
    assert (E2 : d * (alpha + 1) <= d * (alpha * (2^51 + 1))) by (apply Rmult_le_compat_l; lra).
    assert (E3 : d * (alpha * (2^51 + 1)) = alpha * (2^51+1) / 10^30) by (unfold d; field).
    assert (E4 : 2 * (alpha * (2^51+1) / 10^30) <= alpha * / 10^3); [|lra].
    replace (2 * (alpha * (2^51+1) / 10^30)) with (alpha * (2 * (2^51+1) / 10^30)) by field.
    apply Rmult_le_compat_l; [lra|]. lra. }
  unfold rg_eps1. set (w := d * (alpha + pypow d p)) in *.
  assert (W0 : 0 < w) by (apply Rmult_lt_0_compat; lra).
  replace (alpha^2 * p^2 / (2 * d^2 * (alpha + pypow d p)^2)) with ((alpha * p)^2 / (2 * (w * w))) by (unfold w; field; split; lra).
  apply Rmult_lt_reg_r with (2 * (w * w)); [nra|]. replace ((alpha * p)^2 / (2 * (w*w)) * (2 * (w * w))) with ((alpha * p)^2) by (field; lra). nra.
Qed.
