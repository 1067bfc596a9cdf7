From Coq Require Import Reals ZArith Lra Lia.
From Coquelicot Require Import Coquelicot.
From Verif Require Import Base Model.Potentials Model.Interp Model.SlowRoll Spec.PotentialSpec Spec.SlowRollSpec
  Proofs.BaseLemmas Proofs.PotentialDerivs Proofs.PotentialDerivsAll Proofs.PotentialEps Proofs.PotentialEps2 Proofs.InvV Proofs.PhiEnd.
Open Scope R_scope.

Lemma pw_ok_pos x p : 0 < x -> pow_ok x p.
Proof. intros; left; assumption. Qed.
Lemma frac_lt1 x y : 0 < x < y -> 0 < 1 - x / y < 1.
Proof.
  intros [H1 H2]. assert (0 < x / y) by (apply Rdiv_lt_0_compat; lra).
  assert (x / y < 1) by (apply Rmult_lt_reg_r with y; [lra|unfold Rdiv; rewrite Rmult_assoc, Rinv_l by lra; lra]). lra.
Qed.
Lemma pypow_lt1 x p : 0 < x < 1 -> 0 < p -> 0 < pypow x p < 1.
Proof.
  intros Hx Hp. split; [apply pypow_gt0; lra|]. rewrite <- (pypow_1_l p). apply pypow_incr; lra.
Qed.

Lemma branch_in_domain P phi : featureless P -> valid P -> branch P phi -> in_domain P phi.
Proof.
  intros HF HV HB. destruct P; simpl in *; try contradiction; try lra.
  - pose proof (frac_lt1 _ _ HB). split; [lra|left; lra].
  - pose proof (frac_lt1 _ _ HB). split; lra.
  - pose proof (frac_lt1 _ _ HB). split; lra.
  - split; [left; lra|]. pose proof (pypow_gt0 phi p HB); lra.
  - split; [lra|]. pose proof (pow2_ge_0 phi); simpl in *; lra.
Qed.

Ltac pos := repeat first [ assumption | lra | (apply L4_gt0; assumption) | apply exp_pos | apply Rdiv_lt_0_compat | apply Rmult_lt_0_compat | apply Rinv_0_lt_compat | apply pow_lt | apply pypow_gt0 ].

Lemma mono_pos p L phi : 0 < p -> L <> 0 -> 0 < phi -> 0 < mono_V p L phi /\ 0 < mono_dV p L phi.
Proof.
  intros. unfold mono_V, mono_dV. rewrite np_sign_pos by assumption. rewrite Rabs_pos_eq by lra. split; pos.
Qed.
Lemma star_E_gt1 phi : 0 < phi -> 1 < exp (gamma * phi).
Proof. intros. rewrite <- exp_0. apply exp_increasing. apply Rmult_lt_0_compat; [apply gamma_gt0|assumption]. Qed.
Lemma star_pos L phi : L <> 0 -> 0 < phi -> 0 < star_V L phi /\ 0 < star_dV L phi.
Proof.
  intros HL H. pose proof (star_E_gt1 phi H) as E. pose proof gamma_gt0.
  rewrite star_V_E, star_dV_E. split; pos.
Qed.
Lemma nat_angle phi0 phi : 0 < phi < phi0 -> 0 < PI * phi / phi0 < PI.
Proof.
  intros H. pose proof PI_RGT_0. split; [apply Rdiv_lt_0_compat; [apply Rmult_lt_0_compat|]; lra|].
  apply Rmult_lt_reg_r with phi0; [lra|]. unfold Rdiv; rewrite Rmult_assoc, Rinv_l, Rmult_1_r by lra.
  apply Rmult_lt_compat_l; lra.
Qed.
Lemma cos_lt1 x : 0 < x < PI -> cos x < 1.
Proof. intros H. rewrite <- cos_0. apply cos_decreasing_1; lra. Qed.
Lemma nat_pos phi0 L phi : L <> 0 -> 0 < phi < phi0 -> 0 < nat_V phi0 L phi /\ 0 < nat_dV phi0 L phi.
Proof.
  intros HL H. pose proof (nat_angle _ _ H) as HA. pose proof (cos_lt1 _ HA). pose proof (sin_gt_0 _ (proj1 HA) (proj2 HA)).
  pose proof PI_RGT_0. pose proof (L4_gt0 L HL). unfold nat_V, nat_dV. split; pos.
Qed.
Lemma dw_pos p phi0 L phi : 0 < p -> L <> 0 -> 0 < phi < phi0 -> 0 < dw_V p phi0 L phi /\ 0 < dw_dV p phi0 L phi.
Proof.
  intros Hp HL H. pose proof (frac_lt1 _ _ H) as HX. fold (dw_x phi0 phi) in HX.
  pose proof (pypow_lt1 _ p HX Hp). unfold dw_V, dw_dV. split; pos.
Qed.
Lemma tanh_in01 u : 0 < u -> 0 < tanh u < 1.
Proof. intros. split; [apply tanh_gt0; assumption|apply tanh_lt1]. Qed.
Lemma tm_C_in01 alpha phi : 0 < alpha -> 0 < phi -> 0 < tm_C alpha phi < 1.
Proof. intros Ha H. apply tanh_in01. apply Rdiv_lt_0_compat; [assumption|apply s6a_gt0; exact Ha]. Qed.
Lemma tm_dV_alt' p alpha L phi : 0 < alpha -> 0 < phi ->
  tm_dV p alpha L phi = 2 * (p * L^4 / s_6_a alpha) * (pypow (tm_C alpha phi) (2*p) / tm_C alpha phi) * (1 - tm_C alpha phi^2).
Proof.
  intros Ha H. pose proof (tm_C_in01 alpha phi Ha H) as HC. unfold tm_dV.
  rewrite pypow_m1, pypow_p1 by (left; lra). pose proof (s6a_gt0 alpha Ha). field; lra.
Qed.
Lemma tm_pos p alpha L phi : 0 < p -> 0 < alpha -> L <> 0 -> 0 < phi -> 0 < tm_V p alpha L phi /\ 0 < tm_dV p alpha L phi.
Proof.
  intros Hp Ha HL H. pose proof (tm_C_in01 alpha phi Ha H) as HC. pose proof (s6a_gt0 alpha Ha).
  rewrite tm_dV_alt' by assumption. unfold tm_V. pose proof (L4_gt0 L HL).
  assert (0 < 1 - tm_C alpha phi^2) by nra. split; pos.
Qed.
Lemma rg_pos p alpha L phi : 0 < p -> 0 < alpha -> L <> 0 -> 0 < phi -> 0 < rg_V p alpha L phi /\ 0 < rg_dV p alpha L phi.
Proof.
  intros Hp Ha HL H. pose proof (pypow_gt0 phi p H). unfold rg_V, rg_dV. split; pos.
Qed.
Lemma quad_pos L phi : L <> 0 -> 0 < phi -> 0 < quad_V L phi /\ 0 < quad_dV L phi.
Proof. intros HL H. unfold quad_V, quad_dV. split; pos. Qed.

Lemma branch_pos P L phi : featureless P -> valid P -> L <> 0 -> branch P phi ->
  0 < V P L phi /\ 0 < dV P L phi.
Proof.
  intros HF HV HL HB. destruct P; simpl in HF, HV, HB |- *; try contradiction;
  match goal with
  | |- context [quad_dV] => apply quad_pos
  | |- context [mono_dV] => apply mono_pos
  | |- context [star_dV] => apply star_pos
  | |- context [nat_dV] => apply nat_pos
  | |- context [dw_dV] => apply dw_pos
  | |- context [tm_dV] => apply tm_pos
  | |- context [rg_dV] => apply rg_pos
  end; solve [assumption | tauto | lra].
Qed.

(** the e-fold function as a total function, given phi_end *)
Definition Nfun (P : pot) (e phi : R) : R :=
  match P with
  | Monomial p => mono_phi2N p phi
  | Linear => mono_phi2N 1 phi
  | Quadratic => mono_phi2N 2 phi
  | Cubic => mono_phi2N 3 phi
  | Quartic => mono_phi2N 4 phi
  | Starobinsky | StarobinskyGaussianDip _ _ _ | StarobinskyTanhStep _ _ _ => star_phi2N phi
  | Natural phi0 => nat_phi2N phi0 phi
  | DoubleWell p phi0 => dw_phi2N p phi0 e phi
  | DoubleWell2 phi0 => dw_phi2N 2 phi0 e phi
  | DoubleWell4 phi0 => dw_phi2N 4 phi0 e phi
  | Tmodel p alpha => tm_phi2N p alpha phi
  | RadionGauge p alpha => rg_phi2N p alpha e phi
  | RadionGauge2 alpha => rg_phi2N 2 alpha e phi
  end.
Lemma Nfun_ok root P L e phi : phi_end root P L = Ok e -> sr_phi2N root P L phi = Ok (Nfun P e phi).
Proof. intros H. destruct P; try reflexivity; unfold sr_phi2N; rewrite H; reflexivity. Qed.

Lemma mono_N' p L phi : 0 < p -> L <> 0 -> 0 < phi -> is_derive (mono_phi2N p) phi (mono_V p L phi / mono_dV p L phi).
Proof.
  intros Hp HL H. unfold mono_phi2N. auto_derive; [exact I|]. rewrite mono_dV_alt by lra. unfold mono_V.
  assert (0 < pypow (Rabs phi) p) by (apply pypow_gt0; rewrite Rabs_pos_eq; lra).
  field. splits; try lra; exact HL.
Qed.
Lemma quad_N' L phi : L <> 0 -> 0 < phi -> is_derive (mono_phi2N 2) phi (quad_V L phi / quad_dV L phi).
Proof.
  intros HL H. unfold mono_phi2N. auto_derive; [exact I|]. unfold quad_V, quad_dV. field. splits; try lra; exact HL.
Qed.
Lemma star_N' L phi : L <> 0 -> 0 < phi -> is_derive star_phi2N phi (star_V L phi / star_dV L phi).
Proof.
  intros HL H. unfold star_phi2N. pose proof (star_E_gt1 phi H). pose proof gamma_gt0.
  auto_derive; [exact I|]. rewrite star_V_E, star_dV_E. field. splits; try lra; exact HL.
Qed.
Lemma loc_between a b x : a < x < b -> locally x (fun t : R => a < t < b).
Proof.
  intros H. apply (locally_interval _ x (Finite a) (Finite b)); simpl; try tauto.
Qed.
Lemma loc_gt0 x : 0 < x -> locally x (fun t : R => 0 < t).
Proof. intros H. apply (locally_interval _ x (Finite 0) p_infty); simpl; try tauto. Qed.
Lemma nat_cos phi0 t : 0 < t < phi0 -> 0 < cos (PI * t / (2 * phi0)).
Proof.
  intros H. pose proof (nat_angle _ _ H) as HA. pose proof PI_RGT_0.
  assert (Hh : PI * t / phi0 = 2 * (PI * t / (2*phi0))) by (field; lra). rewrite Hh in HA. apply cos_gt_0; lra.
Qed.
Lemma ln_tan2 h : 0 < cos h -> ln (tan h ^ 2 + 1) = -2 * ln (cos h).
Proof.
  intros Hc. replace (tan h ^ 2 + 1) with (/ (cos h * cos h)).
  - rewrite ln_Rinv by (apply Rmult_lt_0_compat; assumption). rewrite ln_mult by assumption. ring.
  - unfold tan. pose proof (sin2_cos2 h) as S. unfold Rsqr in S.
    transitivity ((sin h * sin h + cos h * cos h) / (cos h * cos h)); [rewrite S; field; lra|field; lra].
Qed.
Lemma nat_N' phi0 L phi : L <> 0 -> 0 < phi < phi0 -> is_derive (nat_phi2N phi0) phi (nat_V phi0 L phi / nat_dV phi0 L phi).
Proof.
  intros HL H. pose proof (nat_angle _ _ H) as HA. pose proof PI_RGT_0. pose proof (nat_cos _ _ H) as Hc.
  set (h := PI * phi / (2 * phi0)) in *. assert (Hh : PI * phi / phi0 = 2 * h) by (unfold h; field; lra).
  rewrite Hh in HA. assert (Hs : 0 < sin h) by (apply sin_gt_0; lra).
  set (C := ln (tan (PI * nat_phi_end phi0 / (2 * phi0)) ^ 2 + 1)).
  apply (is_derive_ext_loc (fun t => phi0 ^ 2 / PI ^ 2 * (-2 * ln (cos (PI * t / (2*phi0))) - C))).
  { generalize (loc_between _ _ _ H). apply filter_imp. intros t Ht. unfold nat_phi2N. fold C.
    rewrite ln_tan2 by (apply nat_cos; exact Ht). reflexivity. }
  auto_derive; replace (PI * phi * / (2 * phi0)) with h by (unfold h, Rdiv; ring); [exact Hc|].
  unfold nat_V, nat_dV. rewrite Hh, sin_2a, cos_2a_sin. pose proof (L4_gt0 L HL).
  field. splits; try lra; exact HL.
Qed.
Lemma dw_N' p phi0 L e phi : 0 < p -> L <> 0 -> 0 < phi < phi0 ->
  is_derive (dw_phi2N p phi0 e) phi (dw_V p phi0 L phi / dw_dV p phi0 L phi).
Proof.
  intros Hp HL H. pose proof (frac_lt1 _ _ H) as HX. fold (dw_x phi0 phi) in HX.
  pose proof (pypow_lt1 _ p HX Hp) as HY.
  assert (E : dw_V p phi0 L phi / dw_dV p phi0 L phi
            = phi0 * (dw_x phi0 phi / pypow (dw_x phi0 phi) p - dw_x phi0 phi) / (2 * p)).
  { unfold dw_V, dw_dV. rewrite pypow_m1 by (left; lra). field. splits; try lra; exact HL. }
  rewrite E. unfold dw_phi2N. destruct (Req_EM_T p 2) as [->|Hp2].
  - rewrite pypow_2 by lra. auto_derive; [lra|]. unfold dw_x. field. lra.
  - set (C := - pypow phi0 p * pypow (phi0 - e) (2 - p) / (2 * (p - 2)) - (phi0 - e)^2/4).
    set (Y := fun t => pypow (phi0 - t) (2 - p)).
    assert (HYd : is_derive Y phi (- ((2-p) * Y phi / (phi0 - phi)))).
    { unfold Y. replace (- ((2-p) * pypow (phi0 - phi) (2-p) / (phi0 - phi)))
        with (-1 * ((2-p) * pypow (phi0 - phi) (2-p) / (phi0 - phi))) by ring.
      apply (is_derive_comp (fun u => pypow u (2-p)) (fun t => phi0 - t)).
      - apply is_derive_pypow. left; lra.
      - auto_derive; [exact I|ring]. }
    apply (is_derive_ext (fun t => (pypow phi0 p * Y t / (2 * (p-2)) + (phi0 - t)^2/4 + C)/p)).
    { intros t. unfold C, Y; match goal with |- ?a = ?b => change (@eq R a b) end; field. lra. }
    assert (HYe : Y phi = (phi0 - phi)^2 / pypow (phi0 - phi) p).
    { unfold Y. replace (2 - p) with ((-p) + 2) by ring. rewrite !pypow_pos by lra.
      rewrite Rpower_plus, Rpower_Ropp. replace 2 with (INR 2) at 1 by reflexivity. rewrite Rpower_pow by lra.
      unfold Rdiv; ring. }
    assert (HXe : pypow (dw_x phi0 phi) p = pypow (phi0 - phi) p / pypow phi0 p).
    { unfold dw_x. replace (1 - phi/phi0) with ((phi0 - phi)/phi0) by (field; lra).
      assert (0 < (phi0 - phi)/phi0) by (apply Rdiv_lt_0_compat; lra).
      rewrite !pypow_pos by (assumption || lra). unfold Rpower.
      rewrite ln_div by lra. unfold Rdiv. rewrite <- exp_Ropp, <- exp_plus. f_equal. ring. }
    rewrite HXe. assert (0 < pypow (phi0 - phi) p) by (apply pypow_gt0; lra). assert (0 < pypow phi0 p) by (apply pypow_gt0; lra).
    auto_derive; [eexists; exact HYd|]. change (fun x : R => Y x) with Y. rewrite (is_derive_unique _ _ _ HYd), HYe.
    unfold dw_x. field. splits; lra.
Qed.
Lemma tm_N' p alpha L phi : 0 < p -> 0 < alpha -> L <> 0 -> 0 < phi ->
  is_derive (tm_phi2N p alpha) phi (tm_V p alpha L phi / tm_dV p alpha L phi).
Proof.
  intros Hp Ha HL H. pose proof (tm_C_in01 alpha phi Ha H) as HC. pose proof (s6a_gt0 alpha Ha) as Hs.
  rewrite tm_dV_alt' by assumption. unfold tm_V, tm_phi2N.
  assert (HY : 0 < pypow (tm_C alpha phi) (2*p)) by (apply pypow_gt0; lra).
  set (K := fun t => cosh (2 * t / s_6_a alpha)).
  assert (Hd : is_derive K phi (2 / s_6_a alpha * sinh (2 * phi / s_6_a alpha))).
  { unfold K. apply (is_derive_comp cosh (fun t => 2 * t / s_6_a alpha)); [apply is_derive_cosh|]. auto_derive; [exact I|field; lra]. }
  apply (is_derive_ext (fun t => s_6_a alpha / (8*p) * (s_6_a alpha * K t - sqrt (8*p^2 + (s_6_a alpha)^2)))); [reflexivity|].
  auto_derive; [eexists; exact Hd|]. change (fun x : R => K x) with K. rewrite (is_derive_unique _ _ _ Hd).
  replace (2 * phi / s_6_a alpha) with (2 * (phi / s_6_a alpha)) by (field; lra). rewrite sinh_2. fold (tm_C alpha phi).
  assert (0 < 1 - tm_C alpha phi^2) by nra. field. splits; try lra; exact HL.
Qed.
Lemma rg_N' p alpha L e phi : 0 < p -> 0 < alpha -> L <> 0 -> 0 < phi ->
  is_derive (rg_phi2N p alpha e) phi (rg_V p alpha L phi / rg_dV p alpha L phi).
Proof.
  intros Hp Ha HL H. pose proof (pypow_gt0 phi p H) as HY.
  set (Z := fun t => pypow t (p+2)).
  assert (Hd : is_derive Z phi ((p+2) * pypow phi (p+2) / phi)) by (apply is_derive_pypow; left; lra).
  apply (is_derive_ext (fun t => (Z t - pypow e (p+2) + (t^2 - e^2) * (alpha*p/2 + alpha)) / (alpha * p * (p+2)))); [reflexivity|].
  auto_derive; [eexists; exact Hd|]. change (fun x : R => Z x) with Z. rewrite (is_derive_unique _ _ _ Hd).
  rewrite pypow_p2 by (left; lra). unfold rg_V, rg_dV. rewrite pypow_m1 by (left; lra). field. splits; try lra; exact HL.
Qed.

Lemma Nfun_derive P L e phi : featureless P -> valid P -> L <> 0 -> branch P phi ->
  is_derive (Nfun P e) phi (V P L phi / dV P L phi).
Proof.
  intros HF HV HL HB. destruct P; simpl in HF, HV, HB; try contradiction; unfold Nfun, V, dV;
  match goal with
  | |- context [quad_dV] => apply quad_N'
  | |- context [mono_dV] => apply mono_N'
  | |- context [star_dV] => apply star_N'
  | |- context [nat_dV] => apply nat_N'
  | |- context [dw_dV] => apply dw_N'
  | |- context [tm_dV] => apply tm_N'
  | |- context [rg_dV] => apply rg_N'
  end; solve [assumption | tauto | lra].
Qed.

Lemma mono_N_end p : 0 < p -> mono_phi2N p (mono_phi_end p) = 0.
Proof.
  intros. unfold mono_phi2N, mono_phi_end. pose proof sqrt2_sq as S.
  replace ((sqrt 2 * p / 2)^2) with (sqrt 2 * sqrt 2 * p^2 / 4) by field. rewrite S. field; lra.
Qed.
Lemma cosh_arcsinh w : cosh (arcsinh w) = sqrt (w^2 + 1).
Proof.
  pose proof (cosh2_sinh2 (arcsinh w)) as H. rewrite sinh_arcsinh in H.
  symmetry. apply sqrt_lem_1; [pose proof (pow2_ge_0 w); lra|left; apply cosh_gt0|]. simpl in *; lra.
Qed.
Lemma tm_N_end p alpha : 0 < p -> 0 < alpha -> tm_phi2N p alpha (tm_phi_end p alpha) = 0.
Proof.
  intros Hp Ha. pose proof (s6a_gt0 alpha Ha) as Hs. unfold tm_phi2N, tm_phi_end.
  set (w := 2 * sqrt 2 * p / s_6_a alpha).
  replace (2 * (s_6_a alpha / 2 * arcsinh w) / s_6_a alpha) with (arcsinh w) by (field; lra).
  rewrite cosh_arcsinh.
  replace (8 * p^2 + s_6_a alpha^2) with (s_6_a alpha ^2 * (w^2 + 1)).
  - rewrite sqrt_mult by (pose proof (pow2_ge_0 (s_6_a alpha)); pose proof (pow2_ge_0 w); lra).
    rewrite sqrt_pow2 by lra. ring.
  - unfold w. pose proof sqrt2_sq as S. transitivity (4 * (sqrt 2 * sqrt 2) * p^2 + s_6_a alpha^2); [field; lra|rewrite S; ring].
Qed.
Lemma Nfun_end root P L e : featureless P -> valid P -> phi_end root P L = Ok e -> Nfun P e e = 0.
Proof.
  intros HF HV HE. destruct P; simpl in HF, HV; try contradiction; unfold phi_end in HE; unfold Nfun;
  try (injection HE as <-);
  match goal with
  | |- mono_phi2N _ _ = 0 => apply mono_N_end; lra
  | |- star_phi2N _ = 0 => unfold star_phi2N; pose proof gamma_gt0; field; lra
  | |- nat_phi2N _ _ = 0 => unfold nat_phi2N; pose proof PI_RGT_0; field; lra
  | |- tm_phi2N _ _ _ = 0 => apply tm_N_end; tauto
  | |- dw_phi2N _ _ _ _ = 0 => unfold dw_phi2N; destruct (Req_EM_T _ _); unfold Rdiv; ring
  | |- rg_phi2N _ _ _ _ = 0 => unfold rg_phi2N, Rdiv; ring
  end.
Qed.

Lemma dw_end_lt root p phi0 e : root_spec root -> 0 < p -> 0 < phi0 -> ~ (p = 1 /\ phi0 = sqrt 2) ->
  root (fun phi => dw_eps1 p phi0 phi - 1) (EPS * phi0) phi0 = Ok e -> 0 < e < phi0.
Proof.
  intros HR Hp H0 HN HE. apply HR in HE. destruct HE as [H1 [H2 H3]]. pose proof EPS_pos as HEPS.
  assert (EPS * phi0 < phi0) by nra. assert (0 < EPS * phi0) by nra.
  rewrite Rmin_left in H2 by lra. rewrite Rmax_right in H3 by lra. split; [lra|].
  destruct H3 as [|H3]; [assumption|exfalso]. subst e. unfold dw_eps1, dw_x in H1.
  replace (1 - phi0/phi0) with 0 in H1 by (field; lra).
  destruct (Req_EM_T p 1) as [->|Hn].
  - replace (2 * 1 - 2) with 0 in H1 by ring.
    assert (Z : pypow 0 0 = 1). { unfold pypow. destruct (Rlt_dec 0 0); [lra|]. destruct (Req_EM_T 0 0); [reflexivity|congruence]. }
    rewrite Z, pypow_0_l in H1 by lra. apply HN; split; [reflexivity|].
    assert (E : phi0^2 = 2).
    { assert (2 / phi0^2 = 1). { transitivity (2 * 1 ^ 2 * 1 / (phi0 ^ 2 * (0 - 1) ^ 2)); [field; lra|lra]. }
      apply Rmult_eq_reg_r with (/ phi0^2); [rewrite Rinv_r|apply Rinv_neq_0_compat]; try (apply pow_nonzero; lra). unfold Rdiv in H3; lra. }
    rewrite <- E. symmetry. apply sqrt_pow2; lra.
  - rewrite pypow_0_l in H1 by lra. unfold Rdiv in H1. rewrite Rmult_0_r, Rmult_0_l in H1. lra.
Qed.
Lemma phi_end_branch root P L e : root_spec root -> featureless P -> valid P -> L <> 0 ->
  P <> DoubleWell 1 (sqrt 2) -> phi_end root P L = Ok e -> branch P e.
Proof.
  intros HR HF HV HL HN HE. pose proof (phi_end_spec root P L e HR HF HV HL HE) as [Hp _].
  destruct P; simpl in HF, HV |- *; try contradiction; try exact Hp; unfold phi_end in HE.
  - injection HE as <-. apply nat_end_pos; exact HV.
  - apply (dw_end_lt root p phi0 e HR); try tauto. intros [-> ->]; contradiction.
  - injection HE as <-. apply dw2_end; exact HV.
  - apply (dw_end_lt root 4 phi0 e HR); try tauto; try lra.
Qed.
Lemma branch_between P a b x : branch P a -> branch P b -> Rmin a b <= x <= Rmax a b -> branch P x.
Proof.
  intros Ha Hb Hx. assert (Rmin a b = a \/ Rmin a b = b) by (unfold Rmin; destruct (Rle_dec a b); tauto).
  assert (Rmax a b = a \/ Rmax a b = b) by (unfold Rmax; destruct (Rle_dec a b); tauto).
  destruct P; simpl in *; lra.
Qed.
Lemma VdV_cont P L x : featureless P -> valid P -> L <> 0 -> branch P x ->
  continuous (fun t => V P L t / dV P L t) x.
Proof.
  intros HF HV HL HB. pose proof (branch_pos P L x HF HV HL HB) as [_ HdV].
  pose proof (potential_derivatives P L x HF (branch_in_domain P x HF HV HB)) as [D1 [D2 _]].
  assert (E1 : ex_derive (V P L) x) by (eexists; exact D1).
  assert (E2 : ex_derive (dV P L) x).
  { assert (Hl : locally x (fun t => Derive_n (V P L) 1 t = dV P L t)).
    { generalize (in_domain_open P x (branch_in_domain P x HF HV HB)). apply filter_imp. intros t Ht.
      apply is_derive_unique. exact (proj1 (potential_derivatives P L t HF Ht)). }
    eexists. apply (is_derive_ext_loc _ _ _ _ Hl). exact D2. }
  apply (ex_derive_continuous (V:=R_NormedModule)). apply ex_derive_mult; [exact E1|].
  apply ex_derive_inv; [exact E2|lra].
Qed.
Lemma Nfun_RInt root P L e phi : root_spec root -> featureless P -> valid P -> L <> 0 ->
  P <> DoubleWell 1 (sqrt 2) -> phi_end root P L = Ok e -> branch P phi ->
  is_RInt (fun x => V P L x / dV P L x) e phi (Nfun P e phi).
Proof.
  intros HR HF HV HL HN HE HB. pose proof (phi_end_branch root P L e HR HF HV HL HN HE) as HBe.
  replace (Nfun P e phi) with (minus (Nfun P e phi) (Nfun P e e)).
  - apply (is_RInt_derive (V:=R_CompleteNormedModule)).
    + intros x Hx. apply Nfun_derive; try assumption. exact (branch_between P e phi x HBe HB Hx).
    + intros x Hx. apply VdV_cont; try assumption. exact (branch_between P e phi x HBe HB Hx).
  - rewrite (Nfun_end root P L e HF HV HE). unfold minus, plus, opp; simpl. ring.
Qed.
(** strictly increasing on the branch *)
Lemma Nfun_incr P e a b : featureless P -> valid P -> branch P a -> branch P b -> a < b -> Nfun P e a < Nfun P e b.
Proof.
  intros HF HV Ha Hb Hab.
  assert (Hbt : forall x, a <= x <= b -> branch P x).
  { intros x Hx. apply (branch_between P a b x Ha Hb). rewrite Rmin_left, Rmax_right by lra. exact Hx. }
  apply (incr_function_le (Nfun P e) a b (fun x => V P 1 x / dV P 1 x)); simpl; try lra.
  - intros x H1 H2. apply Nfun_derive; try assumption; try lra. apply Hbt; lra.
  - intros x H1 H2. pose proof (branch_pos P 1 x HF HV ltac:(lra) (Hbt x ltac:(lra))) as [? ?].
    apply Rdiv_lt_0_compat; assumption.
Qed.
