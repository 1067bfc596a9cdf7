From Coq Require Import Reals ZArith Lra Lia.
From Coquelicot Require Import Coquelicot.
From Verif Require Import Base Model.Potentials Model.Interp Model.SlowRoll Spec.PotentialSpec Spec.SlowRollSpec
  Proofs.BaseLemmas Proofs.PotentialDerivs Proofs.PotentialEps Proofs.PotentialEps2 Proofs.InvV.
Open Scope R_scope.

Ltac splits := repeat match goal with |- _ /\ _ => split end.

Lemma sqrt2_sq : sqrt 2 * sqrt 2 = 2.
Proof. apply sqrt_sqrt; lra. Qed.
Lemma sqrt2_gt0 : 0 < sqrt 2.
Proof. apply sqrt_lt_R0; lra. Qed.

Lemma mono_end p : 0 < p -> 0 < mono_phi_end p /\ mono_eps1 p (mono_phi_end p) = 1.
Proof.
  intros Hp. pose proof sqrt2_gt0 as H2. pose proof sqrt2_sq as S. split.
  - unfold mono_phi_end. assert (0 < sqrt 2 * p) by (apply Rmult_lt_0_compat; assumption). lra.
  - unfold mono_eps1, mono_phi_end.
    replace (2 * (sqrt 2 * p / 2)^2) with (sqrt 2 * sqrt 2 * p^2 / 2) by field. rewrite S. field; lra.
Qed.
Lemma gamma_sq : gamma * gamma = 2/3.
Proof. unfold gamma. apply sqrt_sqrt; lra. Qed.
Lemma star_end_exp : exp (gamma * star_phi_end) = sqrt 2 * gamma + 1.
Proof.
  unfold star_phi_end. pose proof gamma_gt0. pose proof sqrt2_gt0.
  replace (gamma * (ln (sqrt 2 * gamma + 1) / gamma)) with (ln (sqrt 2 * gamma + 1)) by (field; lra).
  apply exp_ln. assert (0 < sqrt 2 * gamma) by (apply Rmult_lt_0_compat; assumption). lra.
Qed.
Lemma star_end_gt0 : 0 < star_phi_end.
Proof.
  unfold star_phi_end. pose proof gamma_gt0. pose proof sqrt2_gt0.
  assert (0 < sqrt 2 * gamma) by (apply Rmult_lt_0_compat; assumption).
  apply Rdiv_lt_0_compat; [|assumption]. rewrite <- ln_1. apply ln_increasing; lra.
Qed.
Lemma star_end : 0 < star_phi_end /\ star_eps1 star_phi_end = 1.
Proof.
  split; [apply star_end_gt0|]. unfold star_eps1. rewrite star_end_exp.
  pose proof gamma_gt0. pose proof sqrt2_gt0. pose proof sqrt2_sq as S.
  replace ((1 - (sqrt 2 * gamma + 1))^2) with (sqrt 2 * sqrt 2 * gamma^2) by ring. rewrite S. field; lra.
Qed.
Definition nat_u phi0 := sqrt 2 * PI / (2 * phi0).
Lemma nat_u_gt0 phi0 : 0 < phi0 -> 0 < nat_u phi0.
Proof. intros H. unfold nat_u. pose proof PI_RGT_0. pose proof sqrt2_gt0. apply Rdiv_lt_0_compat; [apply Rmult_lt_0_compat; lra|lra]. Qed.
Lemma atan_pos u : 0 < u -> 0 < atan u < PI / 2.
Proof.
  intros Hu. split; [|apply atan_bound]. rewrite <- atan_0. apply atan_increasing; exact Hu.
Qed.
Lemma nat_end_pos phi0 : 0 < phi0 -> 0 < nat_phi_end phi0 < phi0.
Proof.
  intros H. unfold nat_phi_end. fold (nat_u phi0). pose proof PI_RGT_0.
  pose proof (atan_pos _ (nat_u_gt0 _ H)) as [H1 H2]. split.
  - apply Rdiv_lt_0_compat; [|lra]. apply Rmult_lt_0_compat; lra.
  - apply Rmult_lt_reg_r with PI; [lra|]. unfold Rdiv; rewrite Rmult_assoc, Rinv_l, Rmult_1_r by lra.
    apply Rlt_le_trans with (2 * phi0 * (PI/2)); [apply Rmult_lt_compat_l; lra|lra].
Qed.
Lemma nat_half phi0 : 0 < phi0 -> PI * nat_phi_end phi0 / (2 * phi0) = atan (nat_u phi0).
Proof. intros H. unfold nat_phi_end. fold (nat_u phi0). pose proof PI_RGT_0. field; lra. Qed.
Lemma nat_full phi0 : 0 < phi0 -> PI * nat_phi_end phi0 / phi0 = 2 * atan (nat_u phi0).
Proof. intros H. unfold nat_phi_end. fold (nat_u phi0). pose proof PI_RGT_0. field; lra. Qed.
Lemma nat_end phi0 : 0 < phi0 -> nat_eps1 phi0 (nat_phi_end phi0) = 1.
Proof.
  intros H. unfold nat_eps1. rewrite nat_full by exact H. pose proof (nat_u_gt0 _ H) as Hu.
  set (a := atan (nat_u phi0)). pose proof (atan_pos _ Hu) as [H1 H2]. fold a in H1, H2.
  assert (Hc : 0 < cos a) by (apply cos_gt_0; lra).
  assert (Hs : sin a = nat_u phi0 * cos a).
  { pose proof (tan_atan (nat_u phi0)) as T. fold a in T. unfold tan in T. rewrite <- T. field; lra. }
  assert (Hs0 : 0 < sin a) by (rewrite Hs; apply Rmult_lt_0_compat; assumption).
  rewrite sin_2a, cos_2a_sin.
  replace (2 * phi0 ^ 2 * (1 - 2 * sin a * sin a - 1) ^ 2) with (8 * phi0^2 * (sin a)^4) by ring.
  replace (PI ^ 2 * (2 * sin a * cos a) ^ 2 / (8 * phi0 ^ 2 * (sin a)^4)) with (PI^2 * (cos a)^2 / (2 * phi0^2 * (sin a)^2))
    by (field; splits; lra).
  rewrite Hs. unfold nat_u. pose proof PI_RGT_0. pose proof sqrt2_gt0. pose proof sqrt2_sq as S.
  replace (2 * phi0 ^ 2 * (sqrt 2 * PI / (2 * phi0) * cos a) ^ 2) with (sqrt 2 * sqrt 2 * PI^2 * (cos a)^2 / 2) by (field; lra).
  rewrite S. field; splits; lra.
Qed.

Lemma pypow_2 x : x <> 0 -> pypow x 2 = x^2.
Proof. intros H. exact (pypow_nat x 2 H). Qed.
Lemma pypow_4 x : x <> 0 -> pypow x 4 = x^4.
Proof. intros H. replace 4 with (INR 4) by (simpl; ring). exact (pypow_nat x 4 H). Qed.

(* ---- double well, p = 2 ---- *)
Definition dw2_A phi0 := sqrt (phi0^2 + 2).
Lemma dw2_A_sq phi0 : dw2_A phi0 * dw2_A phi0 = phi0^2 + 2.
Proof. unfold dw2_A. apply sqrt_sqrt. pose proof (pow2_ge_0 phi0); lra. Qed.
Lemma dw2_A_gt phi0 : 0 < phi0 -> sqrt 2 < dw2_A phi0 < phi0 + sqrt 2.
Proof.
  intros H. pose proof sqrt2_gt0. pose proof sqrt2_sq. pose proof (dw2_A_sq phi0) as HA.
  assert (0 <= dw2_A phi0) by apply sqrt_pos. split; nra.
Qed.
Lemma dw2_root phi0 : 0 < phi0 -> sqrt (phi0^2 - 2 * sqrt 2 * sqrt (phi0^2 + 2) + 4) = dw2_A phi0 - sqrt 2.
Proof.
  intros H. pose proof (dw2_A_sq phi0) as HA. pose proof sqrt2_sq as S. pose proof (dw2_A_gt phi0 H).
  fold (dw2_A phi0).
  replace (phi0^2 - 2 * sqrt 2 * dw2_A phi0 + 4) with ((dw2_A phi0 - sqrt 2)^2).
  - apply sqrt_pow2; lra.
  - replace ((dw2_A phi0 - sqrt 2) ^ 2) with (dw2_A phi0 * dw2_A phi0 - 2 * sqrt 2 * dw2_A phi0 + sqrt 2 * sqrt 2) by ring.
    rewrite HA, S. ring.
Qed.
Lemma dw2_end_val phi0 : 0 < phi0 -> dw2_phi_end phi0 = phi0 - (dw2_A phi0 - sqrt 2).
Proof. intros H. unfold dw2_phi_end. rewrite dw2_root by exact H. field; lra. Qed.
Lemma dw2_end phi0 : 0 < phi0 -> 0 < dw2_phi_end phi0 < phi0 /\ dw_eps1 2 phi0 (dw2_phi_end phi0) = 1.
Proof.
  intros H. pose proof (dw2_A_gt phi0 H) as [H1 H2]. pose proof (dw2_A_sq phi0) as HA.
  pose proof sqrt2_sq as S. rewrite dw2_end_val by exact H. split; [lra|].
  unfold dw_eps1, dw_x. set (A := dw2_A phi0) in *.
  replace (1 - (phi0 - (A - sqrt 2)) / phi0) with ((A - sqrt 2) / phi0) by (field; lra).
  assert (Hx : 0 < (A - sqrt 2) / phi0) by (apply Rdiv_lt_0_compat; lra).
  replace (2 * 2 - 2) with 2 by ring. rewrite pypow_2 by lra.
  set (x := (A - sqrt 2) / phi0) in *.
  assert (K : phi0 * (1 - x^2) = 2 * sqrt 2 * x).
  { unfold x. replace (phi0 * (1 - ((A - sqrt 2) / phi0) ^ 2))
      with ((phi0^2 - (A * A - 2 * sqrt 2 * A + sqrt 2 * sqrt 2)) / phi0) by (field; lra).
    rewrite HA. transitivity (2 * (sqrt 2 * A - sqrt 2 * sqrt 2) / phi0); [rewrite !S; field; lra|field; lra]. }
  replace (phi0^2 * (x^2 - 1)^2) with ((phi0 * (1 - x^2))^2) by ring. rewrite K.
  replace ((2 * sqrt 2 * x)^2) with (4 * (sqrt 2 * sqrt 2) * x^2) by ring. rewrite S. field; lra.
Qed.

(* ---- T model ---- *)
Lemma tm_end p alpha : 0 < p -> 0 < alpha -> 0 < tm_phi_end p alpha /\ tm_eps1 p alpha (tm_phi_end p alpha) = 1.
Proof.
  intros Hp Ha. pose proof (s6a_gt0 alpha Ha) as Hs. pose proof sqrt2_gt0. pose proof sqrt2_sq as S.
  set (w := 2 * sqrt 2 * p / s_6_a alpha).
  assert (Hw : 0 < w) by (apply Rdiv_lt_0_compat; [repeat apply Rmult_lt_0_compat; lra|exact Hs]).
  assert (0 < arcsinh w) by (rewrite <- arcsinh_0; apply arcsinh_lt; exact Hw).
  split.
  - unfold tm_phi_end. fold w. apply Rmult_lt_0_compat; [lra|assumption].
  - unfold tm_eps1, tm_phi_end. fold w.
    replace (2 * (s_6_a alpha / 2 * arcsinh w) / s_6_a alpha) with (arcsinh w) by (field; lra).
    rewrite sinh_arcsinh. unfold w.
    replace (s_6_a alpha ^ 2 * (2 * sqrt 2 * p / s_6_a alpha) ^ 2) with (4 * (sqrt 2 * sqrt 2) * p^2) by (field; lra).
    rewrite S. field; lra.
Qed.

(* ---- radion gauge, p = 2: Cardano ---- *)
Lemma Rpow_nat x y n : 0 < x -> Rpower x y ^ n = Rpower x (INR n * y).
Proof.
  intros H. rewrite <- Rpower_pow by apply exp_pos. rewrite Rpower_mult. f_equal. ring.
Qed.
Lemma pyp_pow x y (n : nat) z : 0 < x -> INR n * y = z -> pypow x z = pypow x y ^ n.
Proof. intros H E. rewrite !pypow_pos by exact H. rewrite Rpow_nat by exact H. rewrite E. reflexivity. Qed.
Section RG2.
Variable a : R.
Hypothesis Ha : 0 < a.
Let B := sqrt 3*a + 9*sqrt (2*a+27) + 27*sqrt 3.
Let t := pypow 3 (1/6).
Let tau := pypow 3 (1/12).
Let c := pypow a (1/3).
Let b := pypow B (1/3).
Let beta := pypow B (1/6).
Lemma rg2_B_gt : sqrt 3 * a < B.
Proof.
  unfold B. assert (0 < sqrt 3) by (apply sqrt_lt_R0; lra). assert (0 <= sqrt (2*a+27)) by apply sqrt_pos. lra.
Qed.
Lemma rg2_B_gt0 : 0 < B.
Proof. pose proof rg2_B_gt. assert (0 < sqrt 3) by (apply sqrt_lt_R0; lra). assert (0 < sqrt 3 * a) by (apply Rmult_lt_0_compat; assumption). lra. Qed.
Lemma rg2_t6 : t^6 = 3.
Proof.
  unfold t. symmetry. rewrite <- (pyp_pow 3 (1/6) 6 1); [|lra|simpl; field].
  rewrite pypow_pos by lra. rewrite Rpower_1 by lra. reflexivity.
Qed.
Lemma rg2_t_gt0 : 0 < t. Proof. apply pypow_gt0; lra. Qed.
Lemma rg2_c_gt0 : 0 < c. Proof. apply pypow_gt0; exact Ha. Qed.
Lemma rg2_b_gt0 : 0 < b. Proof. apply pypow_gt0, rg2_B_gt0. Qed.
Lemma rg2_beta_gt0 : 0 < beta. Proof. apply pypow_gt0, rg2_B_gt0. Qed.
Lemma rg2_tau_gt0 : 0 < tau. Proof. apply pypow_gt0; lra. Qed.
Lemma rg2_c3 : c^3 = a.
Proof. unfold c. symmetry. rewrite <- (pyp_pow a (1/3) 3 1); [|exact Ha|simpl; field]. rewrite pypow_pos by exact Ha. rewrite Rpower_1 by exact Ha. reflexivity. Qed.
Lemma rg2_b3 : b^3 = B.
Proof. pose proof rg2_B_gt0. unfold b. symmetry. rewrite <- (pyp_pow B (1/3) 3 1); [|assumption|simpl; field]. rewrite pypow_pos by assumption. rewrite Rpower_1 by assumption. reflexivity. Qed.
Lemma rg2_beta2 : beta^2 = b.
Proof. unfold beta, b. symmetry. apply pyp_pow; [apply rg2_B_gt0|simpl; field]. Qed.
Lemma rg2_tau2 : tau^2 = t.
Proof. unfold tau, t. symmetry. apply pyp_pow; [lra|simpl; field]. Qed.
Lemma rg2_s3 : sqrt 3 = t^3.
Proof.
  apply sqrt_lem_1; [lra|apply pow_le; left; apply rg2_t_gt0|]. rewrite <- rg2_t6. ring.
Qed.
Lemma rg2_quad : b^6 - 2 * t^3 * (c^3 + 27) * b^3 + 3 * c^6 = 0.
Proof.
  replace (b^6) with (b^3*b^3) by ring. replace (c^6) with (c^3*c^3) by ring. rewrite rg2_c3, rg2_b3. rewrite <- rg2_s3.
  assert (S3 : sqrt 3 * sqrt 3 = 3) by (apply sqrt_sqrt; lra).
  assert (Q : sqrt (2*a+27) * sqrt (2*a+27) = 2*a+27) by (apply sqrt_sqrt; lra).
  unfold B. set (s := sqrt 3) in *. set (q := sqrt (2*a+27)) in *.
  transitivity (81 * (q * q) - (s*s) * (a + 27)^2 + 3 * a^2); [ring|]. rewrite Q, S3. ring.
Qed.
Lemma rg2_bt : t * c < b.
Proof.
  pose proof rg2_B_gt as HB. rewrite <- rg2_b3, rg2_s3, <- rg2_c3 in HB.
  replace (t^3*c^3) with ((t*c)^3) in HB by ring.
  destruct (Rlt_le_dec (t*c) b) as [|H]; [assumption|].
  assert (b^3 <= (t*c)^3) by (apply pow_incr; split; [left; apply rg2_b_gt0|exact H]). lra.
Qed.
Lemma rg2_val : rg2_phi_end a = tau * (t^2 * c * (b - t * c)) / (3 * beta).
Proof.
  unfold rg2_phi_end. fold B. fold tau. fold beta. fold b.
  rewrite (pyp_pow a (1/3) 4 (4/3)) by (assumption || (simpl; field)).
  rewrite (pyp_pow a (1/3) 2 (2/3)) by (assumption || (simpl; field)).
  rewrite (pyp_pow 3 (1/6) 4 (2/3)) by (lra || (simpl; field)).
  rewrite (pyp_pow 3 (1/6) 5 (5/6)) by (lra || (simpl; field)).
  rewrite (pyp_pow B (1/3) 2 (2/3)) by (apply rg2_B_gt0 || (simpl; field)).
  fold t c b. do 3 f_equal.
  replace (3 * c^4 + t^4 * c^2 * b^2 - 2 * t^5 * a * b) with ((t^2 * c * (b - t*c))^2).
  - apply sqrt_pow2. pose proof rg2_bt. pose proof rg2_t_gt0. pose proof rg2_c_gt0.
    repeat apply Rmult_le_pos; try lra.
  - rewrite <- rg2_c3. transitivity (t^6 * c^4 + t^4*c^2*b^2 - 2 * t^5 * c^3 * b); [ring|]. rewrite rg2_t6. ring.
Qed.
Lemma rg2_sq : (rg2_phi_end a)^2 = t^5 * c^2 * (b - t*c)^2 / (9 * b).
Proof.
  rewrite rg2_val. pose proof rg2_beta_gt0. pose proof rg2_b_gt0.
  transitivity (tau^2 * (t^2 * c * (b - t * c))^2 / (9 * beta^2)); [field; lra|].
  rewrite rg2_tau2, rg2_beta2. field; lra.
Qed.
Lemma rg2_cubic : (rg2_phi_end a)^2 * (a + (rg2_phi_end a)^2)^2 = 2 * a^2.
Proof.
  rewrite rg2_sq. pose proof rg2_b_gt0 as Hb. pose proof rg2_t6 as T6. pose proof rg2_quad as Q.
  rewrite <- rg2_c3.
  transitivity (t^5 * c^6 * (b - t*c)^2 * (9 * b * c + t^5 * (b - t*c)^2)^2 / (729 * b^3)); [field; lra|].
  replace (9 * b * c + t^5 * (b - t*c)^2) with (t^5 * (b^2 + t*b*c + t^2*c^2) + 3 * (3 - t^6) * (b * c)) by ring.
  rewrite T6. replace (3 * (3 - 3) * (b * c)) with 0 by ring. rewrite Rplus_0_r.
  transitivity (c^6 * (t^6)^2 * t^3 * (b^6 - 2 * t^3 * c^3 * b^3 + t^6 * c^6) / (729 * b^3)); [field; lra|].
  rewrite T6. replace (b^6 - 2 * t^3 * c^3 * b^3 + 3 * c^6) with (54 * t^3 * b^3) by lra.
  transitivity (c^6 * 9 * 54 * t^6 / 729); [field; lra|]. rewrite T6. field.
Qed.
Lemma rg2_end : 0 < rg2_phi_end a /\ rg_eps1 2 a (rg2_phi_end a) = 1.
Proof.
  assert (P : 0 < rg2_phi_end a).
  { rewrite rg2_val. pose proof rg2_bt. pose proof rg2_t_gt0. pose proof rg2_c_gt0.
    pose proof rg2_tau_gt0. pose proof rg2_beta_gt0.
    apply Rdiv_lt_0_compat; [|lra]. repeat apply Rmult_lt_0_compat; try lra. }
  split; [exact P|]. unfold rg_eps1. rewrite pypow_2 by lra.
  replace (2 * rg2_phi_end a ^ 2 * (a + rg2_phi_end a ^ 2) ^ 2) with (2 * (rg2_phi_end a ^ 2 * (a + rg2_phi_end a ^ 2) ^ 2)) by ring.
  rewrite rg2_cubic. field; lra.
Qed.
End RG2.

Lemma EPS_pos : 0 < EPS < 1.
Proof. unfold EPS. assert (H : 1 < 2^52) by (apply Rlt_pow_R1; [lra|lia]). split; [apply Rinv_0_lt_compat; lra|]. rewrite <- Rinv_1. apply Rinv_lt_contravar; lra. Qed.

Lemma rg_inv_pos p alpha L d : 0 < p -> 0 < alpha -> L <> 0 -> 0 < d < 1 ->
  0 < rg_inv_V p alpha L (L^4 * (1 - d)).
Proof.
  intros Hp Ha HL Hd. unfold rg_inv_V. apply pypow_gt0. pose proof (L4_gt0 L HL).
  apply Rdiv_lt_0_compat; [exact Ha|].
  replace (L^4 / (L^4 * (1 - d)) - 1) with (d / (1 - d)) by (field; splits; lra).
  apply Rdiv_lt_0_compat; lra.
Qed.
Lemma Rmin_pos a b : 0 < a -> 0 < b -> 0 < Rmin a b.
Proof. intros; unfold Rmin; destruct (Rle_dec a b); assumption. Qed.

Lemma phi_end_spec root P L e : root_spec root -> featureless P -> valid P -> L <> 0 ->
  phi_end root P L = Ok e -> 0 < e /\ eps1V P e = 1.
Proof.
  intros HR HF HV HL HE. pose proof EPS_pos as HEPS.
  destruct P; simpl in HF, HV; try contradiction; unfold eps1V; unfold phi_end in HE.
  - injection HE as <-. apply mono_end; exact HV.
  - injection HE as <-. apply mono_end; lra.
  - injection HE as <-. apply mono_end; lra.
  - injection HE as <-. apply mono_end; lra.
  - injection HE as <-. apply mono_end; lra.
  - injection HE as <-. apply star_end.
  - injection HE as <-. split; [apply nat_end_pos; exact HV|apply nat_end; exact HV].
  - destruct HV as [Hp H0]. apply HR in HE. destruct HE as [H1 [H2 _]]. split; [|lra].
    assert (0 < EPS * phi0) by (apply Rmult_lt_0_compat; lra).
    apply Rlt_le_trans with (2 := H2). apply Rmin_pos; assumption.
  - injection HE as <-. split; apply dw2_end; exact HV.
  - apply HR in HE. destruct HE as [H1 [H2 _]]. split; [|lra].
    assert (0 < EPS * phi0) by (apply Rmult_lt_0_compat; lra).
    apply Rlt_le_trans with (2 := H2). apply Rmin_pos; assumption.
  - injection HE as <-. apply tm_end; tauto.
  - destruct HV as [Hp Ha]. apply HR in HE. destruct HE as [H1 [H2 _]]. split; [|lra].
    apply Rlt_le_trans with (2 := H2). apply Rmin_pos; [apply Rinv_0_lt_compat, pow_lt; lra|].
    apply rg_inv_pos; assumption.
  - injection HE as <-. apply rg2_end; exact HV.
Qed.
