From Coq Require Import Reals ZArith Lra Lia.
From Coquelicot Require Import Coquelicot.
From Verif Require Import Base Model.Potentials Spec.PotentialSpec Proofs.BaseLemmas.
Open Scope R_scope.

(* ---------- monomial ---------- *)
Lemma is_derive_abspow x p : x <> 0 ->
  is_derive (fun t => pypow (Rabs t) p) x (p * pypow (Rabs x) p / x).
Proof.
  intros Hx. destruct (Rlt_dec 0 x) as [Hp|Hn].
  - rewrite Rabs_pos_eq by lra.
    apply is_derive_ext_loc with (f := fun t => pypow t p).
    + apply (filter_imp (fun t => 0 < t)); [|apply open_gt; exact Hp].
      intros t Ht; rewrite Rabs_pos_eq by lra; reflexivity.
    + apply is_derive_pypow; left; exact Hp.
  - rewrite Rabs_left by lra.
    apply is_derive_ext_loc with (f := fun t => pypow (- t) p).
    + apply (filter_imp (fun t => t < 0)); [|apply open_lt; lra].
      intros t Ht; rewrite Rabs_left by lra; reflexivity.
    + replace (p * pypow (- x) p / x) with ((-1) * (p * pypow (- x) p / (- x))) by (field; lra).
      apply (is_derive_comp (fun t => pypow t p) (fun t => - t)).
      * apply is_derive_pypow; left; lra.
      * apply is_derive_Reals. replace (-1) with (- (1)) by ring.
        apply derivable_pt_lim_opp, derivable_pt_lim_id.
Qed.

Lemma sign_abs x : x <> 0 -> np_sign x = x / Rabs x.
Proof.
  intros Hx. destruct (Rlt_dec 0 x) as [Hp|Hn].
  - rewrite np_sign_pos, Rabs_pos_eq by lra. field; lra.
  - rewrite np_sign_neg, Rabs_left by lra. field; lra.
Qed.
Lemma abs_sq x : Rabs x ^ 2 = x ^ 2.
Proof. rewrite RPow_abs, Rabs_pos_eq; [reflexivity|]. apply pow2_ge_0. Qed.

Lemma mono_dV_alt p L x : x <> 0 -> mono_dV p L x = L^4 * p * pypow (Rabs x) p / x.
Proof.
  intros Hx. unfold mono_dV. pose proof (Rabs_pos_lt x Hx) as Ha.
  rewrite pypow_m1 by (left; exact Ha). rewrite sign_abs by exact Hx.
  assert (E : Rabs x * Rabs x = x * x) by (pose proof (abs_sq x); lra).
  set (y := pypow (Rabs x) p). apply Rmult_eq_reg_r with (Rabs x * Rabs x); [|nra].
  transitivity (L ^ 4 * p * y * x); [field; lra|]. rewrite E. field; lra.
Qed.
Lemma mono_d3V_alt p L x : x <> 0 ->
  mono_d3V p L x = L^4 * p * (p^2 - 3*p + 2) * pypow (Rabs x) p / x^3.
Proof.
  intros Hx. unfold mono_d3V. pose proof (Rabs_pos_lt x Hx) as Ha.
  rewrite pypow_m3 by (left; exact Ha). rewrite sign_abs by exact Hx.
  set (y := pypow (Rabs x) p).
  replace (y / Rabs x ^ 3) with (y / (Rabs x * Rabs x^2)) by (field; lra).
  rewrite abs_sq.
  transitivity (L ^ 4 * p * (p ^ 2 - 3 * p + 2) * y * x / (x^2 * Rabs x ^2)).
  - field. split; [lra|exact Hx].
  - rewrite abs_sq. field; exact Hx.
Qed.
Lemma mono_d4V_alt p L x : x <> 0 ->
  mono_d4V p L x = L^4 * p * (p^3 - 6*p^2 + 11*p - 6) * pypow (Rabs x) p / x^4.
Proof.
  intros Hx. unfold mono_d4V. pose proof (Rabs_pos_lt x Hx) as Ha.
  rewrite pypow_m4 by (left; exact Ha).
  replace (Rabs x ^ 4) with ((Rabs x ^ 2)^2) by ring. rewrite abs_sq.
  field; exact Hx.
Qed.

Lemma neq0_locally x : x <> 0 -> locally x (fun t : R => t <> 0).
Proof. intros H. apply open_neq; exact H. Qed.

Section Mono.
Variables (p L x : R).
Hypothesis (Hx : x <> 0).
Let y t := pypow (Rabs t) p.
Let Hy : is_derive y x (p * y x / x) := is_derive_abspow x p Hx.
Let Hy1 : ex_derive y x. Proof. eexists; exact Hy. Qed.
Let Hy2 : Derive y x = p * y x / x. Proof. apply is_derive_unique, Hy. Qed.

Lemma mono_D1 : is_derive (mono_V p L) x (mono_dV p L x).
Proof.
  rewrite mono_dV_alt by exact Hx.
  apply (is_derive_ext (fun t => L^4 * y t)); [reflexivity|].
  auto_derive; [exact Hy1|]. change (fun x0 : R => y x0) with y. rewrite Hy2. unfold y. field; exact Hx.
Qed.
Lemma mono_D2 : is_derive (mono_dV p L) x (mono_d2V p L x).
Proof.
  unfold mono_d2V.
  apply (is_derive_ext_loc (fun t => L^4 * p * y t / t)).
  { apply (filter_imp (fun t => t <> 0)); [|apply neq0_locally; exact Hx].
    intros t Ht; symmetry; apply mono_dV_alt; exact Ht. }
  auto_derive; [split; [exact Hy1|split; [exact Hx|exact I]]|].
  change (fun x0 : R => y x0) with y. rewrite Hy2. fold (y x). field; exact Hx.
Qed.
Lemma mono_D3 : is_derive (mono_d2V p L) x (mono_d3V p L x).
Proof.
  rewrite mono_d3V_alt by exact Hx.
  apply (is_derive_ext (fun t => L^4 * p * (p-1) * y t / t^2)); [reflexivity|].
  auto_derive; [split; [exact Hy1|split; [|exact I]]|].
  { apply Rmult_integral_contrapositive_currified; [exact Hx|lra]. }
  change (fun x0 : R => y x0) with y. rewrite Hy2. fold (y x). field; exact Hx.
Qed.
Lemma mono_D4 : is_derive (mono_d3V p L) x (mono_d4V p L x).
Proof.
  rewrite mono_d4V_alt by exact Hx.
  apply (is_derive_ext_loc (fun t => L^4 * p * (p^2 - 3*p + 2) * y t / t^3)).
  { apply (filter_imp (fun t => t <> 0)); [|apply neq0_locally; exact Hx].
    intros t Ht; symmetry; apply mono_d3V_alt; exact Ht. }
  auto_derive; [split; [exact Hy1|split; [|exact I]]|].
  { replace (x * (x * (x * 1))) with (x^3) by ring. apply pow_nonzero; exact Hx. }
  change (fun x0 : R => y x0) with y. rewrite Hy2. fold (y x). field; exact Hx.
Qed.
End Mono.

(* ---------- quadratic ---------- *)
Lemma quad_D1 L x : is_derive (quad_V L) x (quad_dV L x).
Proof. unfold quad_V, quad_dV. auto_derive; [exact I|ring]. Qed.
Lemma quad_D2 L x : is_derive (quad_dV L) x (quad_d2V L x).
Proof. unfold quad_d2V, quad_dV. auto_derive; [exact I|ring]. Qed.
Lemma quad_D3 L x : is_derive (quad_d2V L) x (quad_d3V x).
Proof. unfold quad_d2V, quad_d3V. auto_derive; [exact I|ring]. Qed.
Lemma quad_D4 x : is_derive quad_d3V x (quad_d4V x).
Proof. unfold quad_d3V, quad_d4V. auto_derive; [exact I|ring]. Qed.

(* ---------- Starobinsky ---------- *)
Lemma exp_m2 g x : exp (-2 * g * x) = (exp (- (g * x)))^2.
Proof. simpl. rewrite Rmult_1_r, <- exp_plus. f_equal; ring. Qed.
Lemma exp_m1 g x : exp (- g * x) = exp (- (g * x)).
Proof. f_equal; ring. Qed.

Ltac star_tac x :=
  rewrite ?exp_m2, ?exp_m1, ?exp_Ropp; pose proof (exp_pos (gamma * x)); field; lra.

Lemma star_D1 L x : is_derive (star_V L) x (star_dV L x).
Proof. unfold star_V, star_dV. auto_derive; [exact I|]. star_tac x. Qed.
Lemma star_D2 L x : is_derive (star_dV L) x (star_d2V L x).
Proof. unfold star_dV, star_d2V. auto_derive; [exact I|]. star_tac x. Qed.
Lemma star_D3 L x : is_derive (star_d2V L) x (star_d3V L x).
Proof. unfold star_d3V, star_d2V. auto_derive; [exact I|]. star_tac x. Qed.
Lemma star_D4 L x : is_derive (star_d3V L) x (star_d4V L x).
Proof. unfold star_d3V, star_d4V. auto_derive; [exact I|]. star_tac x. Qed.

(* ---------- natural ---------- *)
Section Nat.
Variables (phi0 L x : R).
Hypothesis (H0 : phi0 <> 0).
Lemma nat_D1 : is_derive (nat_V phi0 L) x (nat_dV phi0 L x).
Proof. unfold nat_V, nat_dV. auto_derive; [exact I|]. unfold Rdiv; field; exact H0. Qed.
Lemma nat_D2 : is_derive (nat_dV phi0 L) x (nat_d2V phi0 L x).
Proof. unfold nat_d2V, nat_dV. auto_derive; [exact I|]. unfold Rdiv; field; exact H0. Qed.
Lemma nat_D3 : is_derive (nat_d2V phi0 L) x (nat_d3V phi0 L x).
Proof. unfold nat_d2V, nat_d3V. auto_derive; [exact I|]. unfold Rdiv; field; exact H0. Qed.
Lemma nat_D4 : is_derive (nat_d3V phi0 L) x (nat_d4V phi0 L x).
Proof. unfold nat_d3V, nat_d4V. auto_derive; [exact I|]. unfold Rdiv; field; exact H0. Qed.
End Nat.

(* ---------- double well ---------- *)
Section DW.
Variables (p phi0 L : R).
Hypothesis (H0 : phi0 <> 0).
Let X (t : R) := dw_x phi0 t.
Let Y (t : R) := pypow (dw_x phi0 t) p.

Lemma is_derive_dwx x : is_derive X x (- / phi0).
Proof. unfold X, dw_x. auto_derive; [exact I|]. field; exact H0. Qed.

Lemma is_derive_dwy x : pow_ok (dw_x phi0 x) p ->
  is_derive Y x (- / phi0 * (p * Y x / X x)).
Proof.
  intros H. apply (is_derive_comp (fun t => pypow t p) X); [|apply is_derive_dwx].
  apply is_derive_pypow; exact H.
Qed.

Lemma dw_dom_loc x : pow_ok (dw_x phi0 x) p -> locally x (fun t => pow_ok (dw_x phi0 t) p).
Proof.
  intros H. apply (pow_ok_locally (dw_x phi0 x)) in H.
  assert (C : continuous X x) by (apply (ex_derive_continuous X x); eexists; apply is_derive_dwx).
  exact (C _ H).
Qed.

Variable (x : R).
Hypothesis (Hx : pow_ok (dw_x phi0 x) p).
Let HX : X x <> 0 := pow_ok_neq0 _ _ Hx.
Let Hy1 : ex_derive Y x. Proof. eexists; apply is_derive_dwy, Hx. Qed.
Let Hy2 : Derive Y x = - / phi0 * (p * Y x / X x). Proof. apply is_derive_unique, is_derive_dwy, Hx. Qed.
Let Hx1 : ex_derive X x. Proof. eexists; apply is_derive_dwx. Qed.
Let Hx2 : Derive X x = - / phi0. Proof. apply is_derive_unique, is_derive_dwx. Qed.

Lemma mulnz a b : a <> 0 -> b <> 0 -> a * b <> 0.
Proof. intros; apply Rmult_integral_contrapositive_currified; assumption. Qed.

Lemma dw_D1 : is_derive (dw_V p phi0 L) x (dw_dV p phi0 L x).
Proof.
  unfold dw_dV. rewrite pypow_m1 by exact Hx. fold (Y x) (X x).
  apply (is_derive_ext (fun t => L^4 * (1 - Y t)^2)); [reflexivity|].
  auto_derive; [exact Hy1|]. change (fun x0 : R => Y x0) with Y. rewrite Hy2. field; split; assumption.
Qed.
Lemma dw_D2 : is_derive (dw_dV p phi0 L) x (dw_d2V p phi0 L x).
Proof.
  unfold dw_d2V. rewrite pypow_m2 by exact Hx. fold (Y x) (X x).
  apply (is_derive_ext_loc (fun t => L^4 * 2 * p * (Y t / X t) / phi0 * (1 - Y t))).
  { generalize (dw_dom_loc x Hx). apply filter_imp. intros t Ht. unfold dw_dV.
    rewrite pypow_m1 by exact Ht. reflexivity. }
  auto_derive; [repeat split; assumption|].
  change (fun x0 : R => Y x0) with Y; change (fun x0 : R => X x0) with X.
  rewrite Hy2, Hx2. field; split; assumption.
Qed.
Lemma dw_D3 : is_derive (dw_d2V p phi0 L) x (dw_d3V p phi0 L x).
Proof.
  unfold dw_d3V. rewrite pypow_m3 by exact Hx. fold (Y x) (X x).
  apply (is_derive_ext_loc (fun t => L^4 * 2 * p * (Y t / X t^2) / phi0^2 * (- p + Y t * (2*p-1) + 1))).
  { generalize (dw_dom_loc x Hx). apply filter_imp. intros t Ht. unfold dw_d2V.
    rewrite pypow_m2 by exact Ht. reflexivity. }
  auto_derive; [repeat split; repeat first [assumption | lra | apply mulnz]|].
  change (fun x0 : R => Y x0) with Y; change (fun x0 : R => X x0) with X.
  rewrite Hy2, Hx2. field; split; assumption.
Qed.
Lemma dw_D4 : is_derive (dw_d3V p phi0 L) x (dw_d4V p phi0 L x).
Proof.
  unfold dw_d4V. rewrite pypow_m4 by exact Hx. fold (Y x) (X x).
  apply (is_derive_ext_loc (fun t => L^4 * 2 * p * (Y t / X t^3) / phi0^3
           * (p^2 - 3*p + Y t * (-4*p^2 + 6*p - 2) + 2))).
  { generalize (dw_dom_loc x Hx). apply filter_imp. intros t Ht. unfold dw_d3V.
    rewrite pypow_m3 by exact Ht. reflexivity. }
  auto_derive; [repeat split; repeat first [assumption | lra | apply mulnz]|].
  change (fun x0 : R => Y x0) with Y; change (fun x0 : R => X x0) with X.
  rewrite Hy2, Hx2. field; split; assumption.
Qed.
End DW.

(* ---------- T-model ---------- *)
Section TM.
Variables (p alpha L : R).
Hypothesis (Ha : 0 < alpha).
Let s := s_6_a alpha.
Let X (t : R) := tm_C alpha t.
Let Y (t : R) := pypow (tm_C alpha t) (2*p).
Lemma s6a_gt0 : 0 < s.
Proof. apply sqrt_lt_R0; lra. Qed.
Let Hs : s <> 0. Proof. apply Rgt_not_eq, s6a_gt0. Qed.

Lemma is_derive_tmx x : is_derive X x ((1 - (X x)^2) / s).
Proof.
  unfold X, tm_C. replace ((1 - tanh (x / s_6_a alpha) ^ 2) / s) with
    (/ s * (1 - tanh (x / s_6_a alpha) ^ 2)) by (field; exact Hs).
  apply (is_derive_comp tanh (fun t => t / s_6_a alpha)); [apply is_derive_tanh|].
  auto_derive; [exact I|]. unfold s; field. exact Hs.
Qed.
Lemma is_derive_tmy x : pow_ok (tm_C alpha x) (2*p) ->
  is_derive Y x ((1 - (X x)^2) / s * (2 * p * Y x / X x)).
Proof.
  intros H. apply (is_derive_comp (fun t => pypow t (2*p)) X); [|apply is_derive_tmx].
  apply is_derive_pypow; exact H.
Qed.
Lemma tm_dom_loc x : pow_ok (tm_C alpha x) (2*p) -> locally x (fun t => pow_ok (tm_C alpha t) (2*p)).
Proof.
  intros H. apply (pow_ok_locally (tm_C alpha x)) in H.
  assert (C : continuous X x) by (apply (ex_derive_continuous X x); eexists; apply is_derive_tmx).
  exact (C _ H).
Qed.
Variable (x : R).
Hypothesis (Hx : pow_ok (tm_C alpha x) (2*p)).
Let HX : X x <> 0 := pow_ok_neq0 _ _ Hx.
Let Hy1 : ex_derive Y x. Proof. eexists; apply is_derive_tmy, Hx. Qed.
Let Hy2 : Derive Y x = (1 - (X x)^2) / s * (2 * p * Y x / X x).
Proof. apply is_derive_unique, is_derive_tmy, Hx. Qed.
Let Hx1 : ex_derive X x. Proof. eexists; apply is_derive_tmx. Qed.
Let Hx2 : Derive X x = (1 - (X x)^2) / s. Proof. apply is_derive_unique, is_derive_tmx. Qed.

Lemma tm_D1 : is_derive (tm_V p alpha L) x (tm_dV p alpha L x).
Proof.
  unfold tm_dV. rewrite pypow_m1, pypow_p1 by exact Hx. fold (Y x) (X x). fold s.
  apply (is_derive_ext (fun t => L^4 * Y t)); [reflexivity|].
  auto_derive; [exact Hy1|]. change (fun x0 : R => Y x0) with Y. rewrite Hy2. field; split; assumption.
Qed.
Lemma tm_D2 : is_derive (tm_dV p alpha L) x (tm_d2V p alpha L x).
Proof.
  unfold tm_d2V. rewrite pypow_p0, pypow_m2, pypow_p2 by exact Hx. fold (Y x) (X x). fold s.
  apply (is_derive_ext_loc (fun t => 2 * (p * L^4 / s) * (Y t / X t - Y t * X t))).
  { generalize (tm_dom_loc x Hx). apply filter_imp. intros t Ht. unfold tm_dV.
    rewrite pypow_m1, pypow_p1 by exact Ht. reflexivity. }
  auto_derive; [repeat split; assumption|].
  change (fun x0 : R => Y x0) with Y; change (fun x0 : R => X x0) with X.
  rewrite Hy2, Hx2. field; split; assumption.
Qed.
Lemma tm_D3 : is_derive (tm_d2V p alpha L) x (tm_d3V p alpha L x).
Proof.
  unfold tm_d3V. rewrite pypow_m1, pypow_p1, pypow_m3, pypow_p3 by exact Hx. fold (Y x) (X x). fold s.
  apply (is_derive_ext_loc (fun t => 2 * p * L^4 / s^2 * (Y t / X t^2 * (2*p-1) - Y t * 4 * p + Y t * X t^2 * (2*p+1)))).
  { generalize (tm_dom_loc x Hx). apply filter_imp. intros t Ht. unfold tm_d2V.
    rewrite pypow_p0, pypow_m2, pypow_p2 by exact Ht. reflexivity. }
  auto_derive; [repeat split; repeat first [assumption | lra | apply mulnz]|].
  change (fun x0 : R => Y x0) with Y; change (fun x0 : R => X x0) with X.
  rewrite Hy2, Hx2. field; split; assumption.
Qed.
Lemma tm_D4 : is_derive (tm_d3V p alpha L) x (tm_d4V p alpha L x).
Proof.
  unfold tm_d4V. rewrite pypow_p0, pypow_m2, pypow_p2, pypow_m4, pypow_p4 by exact Hx.
  fold (Y x) (X x). fold s.
  apply (is_derive_ext_loc (fun t => 4 * p * L^4 / s^3 *
     (Y t / X t^3 * (2*p^2 - 3*p + 1) + Y t / X t * (-6*p^2 + 3*p - 1)
      + Y t * X t * (6*p^2 + 3*p + 1) + Y t * X t^3 * (-2*p^2 - 3*p - 1)))).
  { generalize (tm_dom_loc x Hx). apply filter_imp. intros t Ht. unfold tm_d3V.
    rewrite pypow_m1, pypow_p1, pypow_m3, pypow_p3 by exact Ht. reflexivity. }
  auto_derive; [repeat split; repeat first [assumption | lra | apply mulnz]|].
  change (fun x0 : R => Y x0) with Y; change (fun x0 : R => X x0) with X.
  rewrite Hy2, Hx2. field; split; assumption.
Qed.
End TM.

(* ---------- radion gauge ---------- *)
Section RG.
Variables (p alpha L x : R).
Hypothesis (Hx : pow_ok x p).
Let Y (t : R) := pypow t p.
Hypothesis (Hd : alpha + pypow x p <> 0).
Let HX : x <> 0 := pow_ok_neq0 _ _ Hx.
Let Hy1 : ex_derive Y x. Proof. eexists; apply is_derive_pypow, Hx. Qed.
Let Hy2 : Derive Y x = p * Y x / x. Proof. apply is_derive_unique, is_derive_pypow, Hx. Qed.

Ltac rg_side := repeat split; repeat first [assumption | lra | apply mulnz].
Ltac rg_end := change (fun x0 : R => Y x0) with Y; rewrite Hy2; field; split; assumption.

Lemma rg_D1 : is_derive (rg_V p alpha L) x (rg_dV p alpha L x).
Proof.
  unfold rg_dV. rewrite pypow_m1 by exact Hx. fold (Y x).
  apply (is_derive_ext (fun t => L^4 * Y t / (alpha + Y t))); [reflexivity|].
  auto_derive; [rg_side|]. rg_end.
Qed.
Lemma rg_D2 : is_derive (rg_dV p alpha L) x (rg_d2V p alpha L x).
Proof.
  unfold rg_d2V. rewrite pypow_m2 by exact Hx. fold (Y x).
  apply (is_derive_ext_loc (fun t => L^4 * alpha * p * (Y t / t) / (alpha + Y t)^2)).
  { generalize (pow_ok_locally x p Hx). apply filter_imp. intros t Ht. unfold rg_dV.
    rewrite pypow_m1 by exact Ht. reflexivity. }
  auto_derive; [rg_side|]. rg_end.
Qed.
Lemma rg_D3 : is_derive (rg_d2V p alpha L) x (rg_d3V p alpha L x).
Proof.
  unfold rg_d3V. rewrite pypow_m3, pypow_2m by exact Hx. fold (Y x).
  apply (is_derive_ext_loc (fun t => L^4 * alpha * p * (Y t / t^2) * (alpha * p - alpha - p * Y t - Y t) / (alpha + Y t)^3)).
  { generalize (pow_ok_locally x p Hx). apply filter_imp. intros t Ht. unfold rg_d2V.
    rewrite pypow_m2 by exact Ht. reflexivity. }
  auto_derive; [rg_side|]. rg_end.
Qed.
Lemma rg_D4 : is_derive (rg_d3V p alpha L) x (rg_d4V p alpha L x).
Proof.
  unfold rg_d4V. rewrite pypow_m4, pypow_2m by exact Hx. fold (Y x).
  apply (is_derive_ext_loc (fun t => L^4 * alpha * p * (Y t / t^3) *
      (p^2 * (alpha^2 - 4*alpha*Y t + Y t ^2)
        - 3 * p * (alpha - Y t) * (alpha + Y t)
        + 2 * (alpha + Y t)^2) / (alpha + Y t)^4)).
  { generalize (pow_ok_locally x p Hx). apply filter_imp. intros t Ht. unfold rg_d3V.
    rewrite pypow_m3, pypow_2m by exact Ht. reflexivity. }
  auto_derive; [rg_side|]. rg_end.
Qed.
End RG.

(* ---------- features ---------- *)
Section Feat.
Variables (x0 a b : R).
Hypothesis (Hb : b <> 0).
Let G t := exp (- (t - x0)^2 / (2 * b^2)).
Lemma is_derive_G x : is_derive G x (- (x - x0) / b^2 * G x).
Proof.
  apply (is_derive_comp exp (fun t => - (t - x0)^2 / (2 * b^2))).
  - apply is_derive_Reals, derivable_pt_lim_exp.
  - auto_derive; [exact I|field; exact Hb].
Qed.
Let HG1 x : ex_derive G x. Proof. eexists; apply is_derive_G. Qed.
Let HG2 x : Derive G x = - (x - x0) / b^2 * G x. Proof. apply is_derive_unique, is_derive_G. Qed.
Ltac gd_tac x := auto_derive; [apply HG1 || (repeat split; apply HG1) | change (fun x0 : R => G x0) with G; rewrite HG2; fold (G x); field; exact Hb].
Lemma gd_D1 x : is_derive (fun t => gd_F t x0 a b) x (gd_dF x x0 a b).
Proof. apply (is_derive_ext (fun t => - a * G t)); [reflexivity|]. unfold gd_dF. gd_tac x. Qed.
Lemma gd_D2 x : is_derive (fun t => gd_dF t x0 a b) x (gd_d2F x x0 a b).
Proof. apply (is_derive_ext (fun t => a / b^2 * (t - x0) * G t)); [reflexivity|]. unfold gd_d2F. gd_tac x. Qed.
Lemma gd_D3 x : is_derive (fun t => gd_d2F t x0 a b) x (gd_d3F x x0 a b).
Proof. apply (is_derive_ext (fun t => a / b^4 * (b^2 - (t - x0)^2) * G t)); [reflexivity|]. unfold gd_d3F. gd_tac x. Qed.

Let T t := tanh ((t - x0) / b).
Lemma is_derive_T x : is_derive T x ((1 - (T x)^2) / b).
Proof.
  replace ((1 - T x ^ 2) / b) with (/ b * (1 - T x ^ 2)) by (field; exact Hb).
  apply (is_derive_comp tanh (fun t => (t - x0) / b)); [apply is_derive_tanh|].
  auto_derive; [exact I|field; exact Hb].
Qed.
Let HT1 x : ex_derive T x. Proof. eexists; apply is_derive_T. Qed.
Let HT2 x : Derive T x = (1 - (T x)^2) / b. Proof. apply is_derive_unique, is_derive_T. Qed.
Ltac ts_tac x := auto_derive; [apply HT1 || (repeat split; apply HT1) | change (fun x0 : R => T x0) with T; rewrite HT2; fold (T x); field; exact Hb].
Lemma ts_D1 x : is_derive (fun t => ts_F t x0 a b) x (ts_dF x x0 a b).
Proof. apply (is_derive_ext (fun t => a * T t)); [reflexivity|]. unfold ts_dF. ts_tac x. Qed.
Lemma ts_D2 x : is_derive (fun t => ts_dF t x0 a b) x (ts_d2F x x0 a b).
Proof. apply (is_derive_ext (fun t => a / b * (1 - T t^2))); [reflexivity|]. unfold ts_d2F. ts_tac x. Qed.
Lemma ts_D3 x : is_derive (fun t => ts_d2F t x0 a b) x (ts_d3F x x0 a b).
Proof.
  apply (is_derive_ext (fun t => -2 * a / b^2 * T t * (1 - T t^2))); [reflexivity|].
  unfold ts_d3F. ts_tac x.
Qed.
End Feat.

Section FeatProd.
Variables (V0 dV0 d2V0 d3V0 F dF d2F d3F : R -> R).
Hypothesis (HV1 : forall x, is_derive V0 x (dV0 x)).
Hypothesis (HV2 : forall x, is_derive dV0 x (d2V0 x)).
Hypothesis (HV3 : forall x, is_derive d2V0 x (d3V0 x)).
Hypothesis (HF1 : forall x, is_derive F x (dF x)).
Hypothesis (HF2 : forall x, is_derive dF x (d2F x)).
Hypothesis (HF3 : forall x, is_derive d2F x (d3F x)).
Let X1 x : ex_derive V0 x. Proof. eexists; apply HV1. Qed.
Let X2 x : ex_derive dV0 x. Proof. eexists; apply HV2. Qed.
Let X3 x : ex_derive d2V0 x. Proof. eexists; apply HV3. Qed.
Let X4 x : ex_derive F x. Proof. eexists; apply HF1. Qed.
Let X5 x : ex_derive dF x. Proof. eexists; apply HF2. Qed.
Let X6 x : ex_derive d2F x. Proof. eexists; apply HF3. Qed.
Ltac exd := repeat match goal with |- _ /\ _ => split end;
  first [exact I|apply X1|apply X2|apply X3|apply X4|apply X5|apply X6].
Let E1 x : Derive V0 x = dV0 x. Proof. apply is_derive_unique, HV1. Qed.
Let E2 x : Derive dV0 x = d2V0 x. Proof. apply is_derive_unique, HV2. Qed.
Let E3 x : Derive d2V0 x = d3V0 x. Proof. apply is_derive_unique, HV3. Qed.
Let E4 x : Derive F x = dF x. Proof. apply is_derive_unique, HF1. Qed.
Let E5 x : Derive dF x = d2F x. Proof. apply is_derive_unique, HF2. Qed.
Let E6 x : Derive d2F x = d3F x. Proof. apply is_derive_unique, HF3. Qed.
Ltac unid :=
  change (fun x0 : R => V0 x0) with V0; change (fun x0 : R => dV0 x0) with dV0;
  change (fun x0 : R => d2V0 x0) with d2V0; change (fun x0 : R => F x0) with F;
  change (fun x0 : R => dF x0) with dF; change (fun x0 : R => d2F x0) with d2F;
  rewrite ?E1, ?E2, ?E3, ?E4, ?E5, ?E6.
Lemma feat_D1 x : is_derive (feat_V V0 F) x (feat_dV V0 dV0 F dF x).
Proof. unfold feat_V, feat_dV. auto_derive; [exd|unid; ring]. Qed.
Lemma feat_D2 x : is_derive (feat_dV V0 dV0 F dF) x (feat_d2V V0 dV0 d2V0 F dF d2F x).
Proof. unfold feat_d2V, feat_dV. auto_derive; [exd|unid; ring]. Qed.
Lemma feat_D3 x : is_derive (feat_d2V V0 dV0 d2V0 F dF d2F) x (feat_d3V V0 dV0 d2V0 d3V0 F dF d2F d3F x).
Proof. unfold feat_d2V, feat_d3V. auto_derive; [exd|unid; ring]. Qed.
End FeatProd.
