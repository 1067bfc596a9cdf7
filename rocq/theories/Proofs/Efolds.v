(** phi2efolds (deprecated closed forms) agrees with sr_phi2N. *)
From Coq Require Import Reals ZArith Lra Lia.
From Coquelicot Require Import Coquelicot.
From Verif Require Import Base Model.Potentials Model.SlowRoll Spec.PotentialSpec Spec.SlowRollSpec
  Proofs.BaseLemmas Proofs.PotentialDerivs Proofs.PotentialEps Proofs.InvV Proofs.PhiEnd Proofs.SRN.
Open Scope R_scope.

Lemma star_efolds phi : star_phi2efolds phi = star_phi2N phi.
Proof.
  unfold star_phi2efolds, star_phi2N, star_phi_end. replace (1 + sqrt 2 * gamma) with (sqrt 2 * gamma + 1) by ring.
  pose proof gamma_gt0. field. lra.
Qed.

Lemma nat_efolds phi0 phi : 0 < phi0 -> 0 < phi < phi0 -> nat_phi2efolds phi phi0 = Ok (nat_phi2N phi0 phi).
Proof.
  intros H0 Hp. unfold nat_phi2efolds. destruct (Rlt_dec phi phi0); [|lra]. f_equal.
  unfold nat_phi2N. pose proof PI_RGT_0.
  rewrite nat_half by exact H0. rewrite tan_atan.
  rewrite ln_tan2 by (apply nat_cos; exact Hp).
  replace (phi / (2 * (phi0 / PI))) with (PI * phi / (2 * phi0)) by (field; lra).
  replace (nat_u phi0 ^ 2 + 1) with (1 + 1 / (2 * (phi0/PI)^2)).
  - field; lra.
  - unfold nat_u. replace ((sqrt 2 * PI / (2*phi0))^2) with (sqrt 2 * sqrt 2 * PI^2 / (4 * phi0^2)) by (field; lra).
    rewrite sqrt2_sq. field; lra.
Qed.

Lemma dw2_efolds phi0 phi : 0 < phi0 -> 0 < phi < phi0 ->
  dw2_phi2efolds phi phi0 = Ok (dw_phi2N 2 phi0 (dw2_phi_end phi0) phi).
Proof.
  intros H0 Hp. unfold dw2_phi2efolds. destruct (Rlt_dec phi phi0); [|lra]. f_equal.
  unfold dw_phi2N. destruct (Req_EM_T 2 2); [|lra].
  rewrite dw2_end_val by exact H0. pose proof (dw2_A_gt phi0 H0) as [HA1 HA2].
  assert (HE : 4 + phi0^2 - 2 * sqrt (4 + 2*phi0^2) = (dw2_A phi0 - sqrt 2)^2).
  { replace (4 + 2*phi0^2) with (2 * (phi0^2+2)) by ring. rewrite sqrt_mult by (pose proof (pow2_ge_0 phi0); lra).
    fold (dw2_A phi0). pose proof (dw2_A_sq phi0). pose proof sqrt2_sq. nra. }
  rewrite HE. set (y := dw2_A phi0 - sqrt 2) in *. assert (0 < y) by (unfold y; lra).
  replace (phi0 - (phi0 - y)) with y by ring.
  replace ((phi-phi0)^2) with ((phi0-phi)^2) by ring.
  rewrite ln_div by (apply pow_lt; lra). rewrite !ln_pow by lra. simpl INR. field.
Qed.

Section DW4.
Variable phi0 : R.
Hypothesis H0 : 0 < phi0.
Let F := phi0^4.
Let s := sqrt (324 + 3 * F).
Let a := pypow (216 * phi0^8 + phi0^12 - 12 * sqrt (3 * phi0^16 * (108 + phi0^4))) (1/3).
Let v := a + F^2 / a.
Let b := 192 + phi0^4 + phi0^8 / a + a.
Let A := sqrt b / sqrt 3.
Let c := 8 * (128 + F) / A.
Let D := 128 - (a - phi0^4)^2 / (3 * a) + (8 * sqrt 3 * (128 + phi0^4)) / sqrt b.

Lemma F_pos : 0 < F. Proof. unfold F; apply pow_lt; exact H0. Qed.
Lemma s_sq : s * s = 324 + 3 * F.
Proof. unfold s. apply sqrt_sqrt. pose proof F_pos; lra. Qed.
Lemma s_gt : 18 < s.
Proof. pose proof F_pos. pose proof s_sq. assert (0 <= s) by apply sqrt_pos. nra. Qed.
Lemma Q_eq : 216 * phi0^8 + phi0^12 - 12 * sqrt (3 * phi0^16 * (108 + phi0^4)) = F^2 * (s - 18)^2 / 3.
Proof.
  replace (3 * phi0^16 * (108 + phi0^4)) with ((F^2)^2 * (324 + 3 * F)) by (unfold F; ring).
  rewrite sqrt_mult; [|apply pow2_ge_0|pose proof F_pos; lra].
  rewrite sqrt_pow2 by (apply pow2_ge_0). fold s. pose proof s_sq as E.
  replace (216 * phi0^8 + phi0^12) with (F^2 * (216 + F)) by (unfold F; ring).
  replace (F^2 * (s-18)^2 / 3) with (F^2 * (s*s - 36 * s + 324) / 3) by field. rewrite E. field.
Qed.
Lemma Q_pos : 0 < F^2 * (s - 18)^2 / 3.
Proof. pose proof F_pos. pose proof s_gt. apply Rdiv_lt_0_compat; [|lra]. apply Rmult_lt_0_compat; apply pow_lt; lra. Qed.
Lemma a_pos : 0 < a.
Proof. unfold a. rewrite Q_eq, pypow_pos by exact Q_pos. apply exp_pos. Qed.
Lemma a_cube : a^3 = F^2 * (s - 18)^2 / 3.
Proof.
  unfold a. rewrite Q_eq, pypow_pos by exact Q_pos. rewrite <- Rpower_pow by apply exp_pos.
  rewrite Rpower_mult. replace (1/3 * INR 3) with 1 by (simpl; field). apply Rpower_1. exact Q_pos.
Qed.
Lemma v_cubic : v^3 = 3 * F^2 * v + 2 * F^2 * (216 + F).
Proof.
  pose proof a_pos as Ha. pose proof a_cube as H3. pose proof F_pos as HF. pose proof s_gt as Hs. pose proof s_sq as Es.
  assert (H4 : (F^2/a)^3 = F^2 * (s+18)^2 / 3).
  { replace ((F^2/a)^3) with (F^6 / a^3) by (field; lra). rewrite H3.
    assert (Hss : (s-18)*(s+18) = 3*F) by nra.
    apply Rmult_eq_reg_r with (F^2 * (s-18)^2/3); [|pose proof Q_pos; lra].
    replace (F ^ 6 / (F ^ 2 * (s - 18) ^ 2 / 3) * (F ^ 2 * (s - 18) ^ 2 / 3)) with (F^6) by (field; split; lra).
    replace (F ^ 2 * (s + 18) ^ 2 / 3 * (F ^ 2 * (s - 18) ^ 2 / 3)) with (F^4 * ((s-18)*(s+18))^2 / 9) by field.
    rewrite Hss. field. }
  unfold v. replace ((a + F^2/a)^3) with (a^3 + (F^2/a)^3 + 3 * F^2 * (a + F^2/a)) by (field; lra).
  rewrite H3, H4. replace (F ^ 2 * (s - 18) ^ 2 / 3 + F ^ 2 * (s + 18) ^ 2 / 3) with (2 * F^2 * (s*s + 324) / 3) by field.
  rewrite Es. field. lra.
Qed.
Lemma v_ge : 2 * F <= v.
Proof.
  pose proof a_pos as Ha. unfold v. apply Rmult_le_reg_r with a; [lra|].
  replace ((a + F^2/a) * a) with (a^2 + F^2) by (field; lra). pose proof (pow2_ge_0 (a - F)). nra.
Qed.
Lemma b_eq : b = 192 + F + v.
Proof. unfold b, v, F. pose proof a_pos. field. lra. Qed.
Lemma b_pos : 0 < b.
Proof. rewrite b_eq. pose proof v_ge. pose proof F_pos. lra. Qed.
Lemma sqrt3_pos : 0 < sqrt 3. Proof. apply sqrt_lt_R0; lra. Qed.
Lemma A_pos : 0 < A.
Proof. unfold A. apply Rdiv_lt_0_compat; [apply sqrt_lt_R0, b_pos|apply sqrt3_pos]. Qed.
Lemma A_sq : A^2 = 64 + (F + v)/3.
Proof.
  unfold A. pose proof sqrt3_pos. replace ((sqrt b / sqrt 3)^2) with (sqrt b * sqrt b / (sqrt 3 * sqrt 3)) by (field; lra).
  rewrite !sqrt_sqrt by (pose proof b_pos; lra). rewrite b_eq. field.
Qed.
Lemma A_gt8 : 64 + F <= A^2.
Proof. rewrite A_sq. pose proof v_ge. lra. Qed.
Lemma D_eq : D = 192 + F - A^2 + c.
Proof.
  unfold D. rewrite A_sq. pose proof a_pos. pose proof sqrt3_pos. assert (0 < sqrt b) by (apply sqrt_lt_R0, b_pos).
  unfold c. fold F. replace (8 * sqrt 3 * (128 + F) / sqrt b) with (8 * (128 + F) / A) by (unfold A; field; lra).
  unfold v. pose proof A_pos. field. splits; lra.
Qed.
Definition g1 (w : R) := (w - 8 - A)^2 - D.
Definition g2 (w : R) := (w - 8 + A)^2 + (A^2 - 192 - F + c).
Lemma factor w : g1 w * g2 w = (w^2 - F)^2 - 32 * w^3.
Proof.
  unfold g1, g2. rewrite D_eq. pose proof A_pos as HA. pose proof A_sq as E. pose proof v_cubic as HV.
  assert (Hc : c * A = 8 * (128 + F)) by (unfold c; field; lra).
  set (X := A^2) in *. assert (Hv : v = 3 * X - 192 - F) by lra. rewrite Hv in HV.
  assert (K : (2*X - 192 - F)^2 - c^2 = F^2 - 128*F - 12288).
  { apply Rmult_eq_reg_r with X; [|unfold X; apply Rgt_not_eq, pow_lt; exact HA].
    replace (((2 * X - 192 - F) ^ 2 - c ^ 2) * X) with ((2*X-192-F)^2 * X - (c*A)^2) by (unfold X; ring).
    rewrite Hc. nra. }
  set (t := w - 8). replace w with (t + 8) by (unfold t; ring).
  replace (t + 8 - 8 - A) with (t - A) by ring. replace (t + 8 - 8 + A) with (t + A) by ring.
  replace (((t - A) ^ 2 - (192 + F - X + c)) * ((t + A) ^ 2 + (X - 192 - F + c)))
    with (t^4 + 2 * (2*X-192-F) * t^2 - 4 * X * t^2 - 4 * t * (c * A) + ((2*X - 192 - F)^2 - c^2)) by (unfold X; ring).
  rewrite K, Hc. ring.
Qed.
Lemma g_pos0 : 0 < g1 0 /\ 0 < g2 0.
Proof.
  pose proof (factor 0) as E. pose proof F_pos as HF. pose proof A_gt8.
  assert (S : 0 < g1 0 + g2 0).
  { replace (g1 0 + g2 0) with (4 * A^2 - 256 - 2 * F) by (unfold g1, g2; rewrite D_eq; ring). lra. }
  assert (P : 0 < g1 0 * g2 0) by (rewrite E; nra).
  split; nra.
Qed.
Lemma A8 : 8 < A.
Proof. pose proof A_gt8. pose proof F_pos. pose proof A_pos. nra. Qed.
Lemma g2_pos w : 0 <= w -> 0 < g2 w.
Proof. intros Hw. pose proof g_pos0 as [_ H]. pose proof A8. unfold g2 in *. nra. Qed.
Lemma q_sq : (phi0^2)^2 = F. Proof. unfold F; ring. Qed.
Lemma q_pos : 0 < phi0^2. Proof. apply pow_lt; exact H0. Qed.
Lemma g1_neg : g1 (phi0^2) < 0.
Proof.
  pose proof (factor (phi0^2)) as E. rewrite q_sq in E. pose proof q_pos as Hq. pose proof (g2_pos (phi0^2) (Rlt_le _ _ Hq)).
  assert (0 < (phi0^2)^3) by (apply pow_lt; exact Hq).
  replace (F - F) with 0 in E by ring. nra.
Qed.
Lemma D_pos : 0 < D.
Proof. pose proof g1_neg as H. unfold g1 in H. pose proof (pow2_ge_0 (phi0^2 - 8 - A)). lra. Qed.
Definition u := dw4_phi_end_squared phi0.
Lemma u_eq : u = 8 + A - sqrt D. Proof. reflexivity. Qed.
Lemma u_range : 0 < u < phi0^2.
Proof.
  rewrite u_eq. pose proof D_pos as HD. assert (Hs : sqrt D * sqrt D = D) by (apply sqrt_sqrt; lra).
  assert (0 < sqrt D) by (apply sqrt_lt_R0; exact HD). pose proof g_pos0 as [H1 _]. pose proof g1_neg as H2.
  pose proof A_pos. pose proof q_pos. unfold g1 in *. split; nra.
Qed.
Lemma h_unique w : 0 < w < phi0^2 -> ((w^2 - F)^2 = 32 * w^3 <-> w = u).
Proof.
  intros Hw. pose proof (factor w) as E. pose proof (g2_pos w ltac:(lra)) as G2.
  pose proof D_pos as HD. assert (Hs : sqrt D * sqrt D = D) by (apply sqrt_sqrt; lra).
  assert (0 < sqrt D) by (apply sqrt_lt_R0; exact HD).
  split; intros H'.
  - assert (Z : g1 w = 0) by nra. unfold g1 in Z. rewrite u_eq.
    assert (Z' : (8 + A - w - sqrt D) * (8 + A - w + sqrt D) = 0) by nra.
    apply Rmult_integral in Z' as [Z'|Z']; [lra|]. exfalso.
    pose proof g1_neg as G1. unfold g1 in G1. assert (w = 8 + A + sqrt D) by lra. nra.
  - assert (Z : g1 w = 0). { unfold g1. subst w. rewrite u_eq. replace (8 + A - sqrt D - 8 - A) with (- sqrt D) by ring. nra. }
    rewrite Z in E. lra.
Qed.
End DW4.

Lemma dw4_eps_iff phi0 e : 0 < e < phi0 -> (dw_eps1 4 phi0 e = 1 <-> (phi0 - e)^2 = dw4_phi_end_squared phi0).
Proof.
  intros He. set (y := phi0 - e). assert (Hy : 0 < y < phi0) by (unfold y; lra).
  assert (Hr : 0 < y^2 < phi0^2) by (split; [apply pow_lt; lra|nra]).
  rewrite <- (h_unique phi0 ltac:(lra) (y^2) Hr).
  unfold dw_eps1, dw_x. replace (1 - e / phi0) with (y / phi0) by (unfold y; field; lra).
  assert (Hx : 0 < y/phi0) by (apply Rdiv_lt_0_compat; lra).
  replace (2*4-2) with (INR 6) by (simpl; ring). rewrite (pypow_pos _ (INR 6)) by exact Hx. rewrite Rpower_pow by exact Hx.
  rewrite pypow_4 by lra.
  assert (Hd : (y^2)^2 - phi0^4 <> 0). { assert ((y^2)^2 < phi0^4); [|lra]. replace (phi0^4) with ((phi0^2)^2) by ring. nra. }
  replace (2 * 4 ^ 2 * (y / phi0) ^ 6 / (phi0 ^ 2 * ((y / phi0) ^ 4 - 1) ^ 2)) with (32 * (y^2)^3 / ((y^2)^2 - phi0^4)^2).
  2:{ field. splits; try lra; try exact Hd; replace (y^4) with ((y^2)^2) by ring; exact Hd. }
  assert (Hp : 0 < ((y^2)^2 - phi0^4)^2) by (apply pow2_gt_0; exact Hd).
  split; intros H.
  - apply Rmult_eq_compat_r with (r := ((y^2)^2 - phi0^4)^2) in H. rewrite Rmult_1_l in H. rewrite <- H. field. exact Hd.
  - rewrite <- H. apply Rinv_r. lra.
Qed.
Lemma dw4_efolds root phi0 e phi : root_spec root -> 0 < phi0 ->
  phi_end root (DoubleWell4 phi0) 1 = Ok e -> 0 < phi < phi0 ->
  dw4_phi2efolds phi phi0 = Ok (dw_phi2N 4 phi0 e phi).
Proof.
  intros HR H0 HE Hp.
  assert (Hb : branch (DoubleWell4 phi0) e).
  { apply (phi_end_branch root _ 1 e HR); try exact I; try lra; try exact HE; try discriminate. exact H0. }
  assert (He : dw_eps1 4 phi0 e = 1).
  { apply (phi_end_spec root (DoubleWell4 phi0) 1 e HR); try exact I; try lra; try exact HE. exact H0. }
  simpl in Hb. apply (dw4_eps_iff phi0 e Hb) in He.
  unfold dw4_phi2efolds. destruct (Rlt_dec phi phi0); [|lra]. f_equal. rewrite <- He.
  unfold dw_phi2N. destruct (Req_EM_T 4 2); [lra|].
  replace (2 - 4) with (Ropp (INR 2)) by (simpl; ring).
  rewrite !(pypow_pos _ (- INR 2)) by lra. rewrite !Rpower_Ropp, !Rpower_pow by lra.
  rewrite pypow_4 by lra. field. lra.
Qed.
