From Coq Require Import Reals ZArith Lra Lia.
From Coquelicot Require Import Coquelicot.
From Verif Require Import Base Model.Potentials Spec.PotentialSpec Proofs.BaseLemmas
  Proofs.PotentialDerivs Proofs.PotentialDerivsAll Proofs.PotentialEps.
Open Scope R_scope.

(* ------- double well ------- *)
Section DW.
Variables (p phi0 L x : R).
Hypothesis (H0 : phi0 <> 0) (Hx : pow_ok (dw_x phi0 x) p).
Hypothesis (HV : dw_V p phi0 L x <> 0) (HdV : dw_dV p phi0 L x <> 0).
Let X (t : R) := dw_x phi0 t.
Let Y (t : R) := pypow (dw_x phi0 t) p.
Let HX : X x <> 0 := pow_ok_neq0 _ _ Hx.
Let HY : Y x <> 0 := pypow_neq0 _ _ Hx.
Let Hy1 : ex_derive Y x. Proof. eexists; apply is_derive_dwy; assumption. Qed.
Let Hy2 : Derive Y x = - / phi0 * (p * Y x / X x).
Proof. apply is_derive_unique; apply is_derive_dwy; assumption. Qed.
Let Hx1 : ex_derive X x. Proof. eexists; apply is_derive_dwx; assumption. Qed.
Let Hx2 : Derive X x = - / phi0. Proof. apply is_derive_unique; apply is_derive_dwx; assumption. Qed.

Lemma dw_dV_alt t : pow_ok (dw_x phi0 t) p -> dw_dV p phi0 L t = L^4 * 2 * p * (Y t / X t) / phi0 * (1 - Y t).
Proof. intros Ht. unfold dw_dV. rewrite pypow_m1 by exact Ht. reflexivity. Qed.

Lemma dw_nz : L <> 0 /\ p <> 0 /\ 1 - Y x <> 0 /\ Y x - 1 <> 0.
Proof.
  rewrite dw_dV_alt in HdV by exact Hx. nzs.
  assert (1 - Y x <> 0) by assumption. repeat split; try assumption; lra.
Qed.
Lemma dw_e1_alt t : pow_ok (dw_x phi0 t) p ->
  dw_eps1 p phi0 t = 2 * p^2 * (Y t ^2 / X t^2) / (phi0^2 * (Y t - 1)^2).
Proof. intros Ht. unfold dw_eps1. rewrite pypow_2m2 by exact Ht. reflexivity. Qed.
Lemma dw_e2_alt t : pow_ok (dw_x phi0 t) p ->
  dw_eps2 p phi0 t = 4 * p * (Y t / X t^2) * (p + Y t - 1) / (phi0^2 * (Y t - 1)^2).
Proof. intros Ht. unfold dw_eps2. rewrite pypow_m2 by exact Ht. reflexivity. Qed.
Lemma dw_e3_alt t : pow_ok (dw_x phi0 t) p ->
  dw_eps3 p phi0 t = 2*p*(Y t / X t^2) * (p^2-3*p+2*Y t^2+Y t*(p^2+3*p-4)+2)
  / (phi0^2 * (Y t - 1)^2 * (p + Y t - 1)).
Proof. intros Ht. unfold dw_eps3. rewrite pypow_m2, pypow_2m by exact Ht. reflexivity. Qed.

Ltac derXY := destruct dw_nz as [? [? [? ?]]];
  auto_derive; [repeat match goal with |- _ /\ _ => split end;
                 repeat first [assumption | exact I | lra | apply mulnz]
               | change (fun x0 : R => Y x0) with Y; change (fun x0 : R => X x0) with X;
                 rewrite ?Hx2, ?Hy2; reflexivity].

Lemma dw_e1 : dw_eps1 p phi0 x = (dw_dV p phi0 L x / dw_V p phi0 L x)^2 / 2.
Proof.
  rewrite dw_e1_alt, dw_dV_alt by exact Hx. unfold dw_V. fold (Y x). destruct dw_nz as [? [? [? ?]]]. field. nzgoal.
Qed.
Lemma dw_e2 : next_in_hierarchy (dw_V p phi0 L) (dw_dV p phi0 L) (dw_eps1 p phi0) (dw_eps2 p phi0 x) x.
Proof.
  eexists; split.
  - apply (is_derive_ext_loc (fun t => 2 * p^2 * (Y t ^2 / X t^2) / (phi0^2 * (Y t - 1)^2))).
    { generalize (dw_dom_loc p phi0 H0 x Hx). apply filter_imp. intros t Ht. symmetry; apply dw_e1_alt, Ht. }
    derXY.
  - rewrite dw_e2_alt, dw_e1_alt, dw_dV_alt by exact Hx. unfold dw_V. fold (Y x).
    destruct dw_nz as [? [? [? ?]]]. field. nzgoal.
Qed.
Lemma dw_e3 : dw_eps2 p phi0 x <> 0 ->
  next_in_hierarchy (dw_V p phi0 L) (dw_dV p phi0 L) (dw_eps2 p phi0) (dw_eps3 p phi0 x) x.
Proof.
  intros He2. rewrite dw_e2_alt in He2 by exact Hx. apply div_nz_l, mul_nz_r in He2.
  eexists; split.
  - apply (is_derive_ext_loc (fun t => 4 * p * (Y t / X t^2) * (p + Y t - 1) / (phi0^2 * (Y t - 1)^2))).
    { generalize (dw_dom_loc p phi0 H0 x Hx). apply filter_imp. intros t Ht. symmetry; apply dw_e2_alt, Ht. }
    derXY.
  - rewrite dw_e3_alt, dw_e2_alt, dw_dV_alt by exact Hx. unfold dw_V. fold (Y x).
    destruct dw_nz as [? [? [? ?]]]. field. nzgoal.
Qed.
Lemma dw_e4 : dw_eps2 p phi0 x <> 0 -> dw_eps3 p phi0 x <> 0 ->
  next_in_hierarchy (dw_V p phi0 L) (dw_dV p phi0 L) (dw_eps3 p phi0) (dw_eps4 p phi0 x) x.
Proof.
  intros He2. rewrite dw_e2_alt in He2 by exact Hx. apply div_nz_l, mul_nz_r in He2.
  intros He3. rewrite dw_e3_alt in He3 by exact Hx. apply div_nz_l, mul_nz_r in He3.
  eexists; split.
  - apply (is_derive_ext_loc (fun t => 2*p*(Y t / X t^2) * (p^2-3*p+2*Y t^2+Y t*(p^2+3*p-4)+2)
               / (phi0^2 * (Y t - 1)^2 * (p + Y t - 1)))).
    { generalize (dw_dom_loc p phi0 H0 x Hx). apply filter_imp. intros t Ht. symmetry; apply dw_e3_alt, Ht. }
    derXY.
  - unfold dw_eps4. rewrite pypow_m2, pypow_2m, pypow_3m, pypow_4m, pypow_5m by exact Hx.
    fold (Y x) (X x).
    rewrite dw_e3_alt, dw_dV_alt by exact Hx. unfold dw_V. fold (Y x).
    destruct dw_nz as [? [? [? ?]]].
    replace (p ^ 3 - 4 * p ^ 2 + 5 * p + 2 * Y x ^ 5 + Y x ^ 4 * (p ^ 2 + 5 * p - 10) +
      Y x ^ 3 * (p ^ 3 + p ^ 2 - 20 * p + 20) + Y x ^ 2 * (- p ^ 3 - 9 * p ^ 2 + 30 * p - 20) +
      Y x * (- p ^ 3 + 11 * p ^ 2 - 20 * p + 10) - 2)
      with ((Y x - 1)^2 * (p + Y x - 1) * (p ^ 2 - 3 * p + 2 * Y x ^ 2 + Y x * (p ^ 2 + 3 * p - 4) + 2)) by ring.
    field. nzgoal.
Qed.
End DW.

(* ------- T-model ------- *)
Section TM.
Variables (p alpha L x : R).
Hypothesis (Ha : 0 < alpha) (Hx : pow_ok (tm_C alpha x) (2*p)).
Hypothesis (HV : tm_V p alpha L x <> 0) (HdV : tm_dV p alpha L x <> 0).
Let s := s_6_a alpha.
Let X (t : R) := tm_C alpha t.
Let Y (t : R) := pypow (tm_C alpha t) (2*p).
Let Hs : s <> 0. Proof. apply Rgt_not_eq, s6a_gt0, Ha. Qed.
Let HX : X x <> 0 := pow_ok_neq0 _ _ Hx.
Let HY : Y x <> 0 := pypow_neq0 _ _ Hx.
Let Hx1 : ex_derive X x. Proof. eexists; apply is_derive_tmx; assumption. Qed.
Let Hx2 : Derive X x = (1 - (X x)^2) / s. Proof. apply is_derive_unique; apply is_derive_tmx; assumption. Qed.
Lemma tm_dV_alt : tm_dV p alpha L x = 2 * (p * L^4 / s) * (Y x / X x) * (1 - X x^2).
Proof. unfold tm_dV. rewrite pypow_m1, pypow_p1 by exact Hx. fold s. fold (Y x). fold (X x). field; nzgoal. Qed.
Lemma tm_nz : L <> 0 /\ p <> 0 /\ 1 - X x^2 <> 0.
Proof. rewrite tm_dV_alt in HdV. nzs. tauto. Qed.
Lemma X2_pos : 1 + X x ^2 <> 0 /\ X x^2 + 1 <> 0 /\ X x^6 + X x^4 + X x^2 + 1 <> 0.
Proof.
  assert (0 <= X x^2) by apply pow2_ge_0.
  assert (0 <= X x^4) by (replace (X x^4) with ((X x^2)^2) by ring; apply pow2_ge_0).
  assert (0 <= X x^6) by (replace (X x^6) with ((X x^3)^2) by ring; apply pow2_ge_0).
  repeat split; lra.
Qed.
(** sinh(2u) = 2 tanh u/(1-tanh^2 u) *)
Lemma sinh_2 u : sinh (2 * u) = 2 * tanh u / (1 - (tanh u)^2).
Proof.
  unfold tanh. pose proof (cosh_gt0 u) as Hc. pose proof (cosh2_sinh2 u) as H1.
  assert (E : 1 - (sinh u / cosh u)^2 = / (cosh u)^2).
  { replace (/ (cosh u)^2) with (1 / (cosh u)^2) by (field; lra). rewrite <- H1 at 2. field; lra. }
  rewrite E. transitivity (2 * sinh u * cosh u); [|field; lra].
  unfold sinh, cosh. replace (2 * u) with (u + u) by ring. rewrite Ropp_plus_distr, !exp_plus. field.
Qed.
Lemma tm_e1_alt t : tm_eps1 p alpha t = 8 * p^2 / (s^2 * (2 * X t / (1 - X t^2))^2).
Proof.
  unfold tm_eps1. replace (2 * t / s_6_a alpha) with (2 * (t / s_6_a alpha)) by (field; exact Hs).
  rewrite sinh_2. reflexivity.
Qed.
Ltac derX := destruct tm_nz as [? [? ?]]; destruct X2_pos as [? [? ?]];
  auto_derive; [repeat match goal with |- _ /\ _ => split end;
                 repeat first [assumption | exact I | lra | apply mulnz | apply Rinv_neq_0_compat]
               | change (fun x0 : R => X x0) with X;
                 rewrite ?Hx2; reflexivity].
Lemma tm_e1 : tm_eps1 p alpha x = (tm_dV p alpha L x / tm_V p alpha L x)^2 / 2.
Proof.
  rewrite tm_e1_alt, tm_dV_alt. unfold tm_V. fold (Y x). destruct tm_nz as [? [? ?]]. field. nzgoal.
Qed.
Lemma tm_e2 : next_in_hierarchy (tm_V p alpha L) (tm_dV p alpha L) (tm_eps1 p alpha) (tm_eps2 p alpha x) x.
Proof.
  eexists; split.
  - apply (is_derive_ext (fun t => 8 * p^2 / (s^2 * (2 * X t / (1 - X t^2))^2))).
    { intros t; symmetry; apply tm_e1_alt. }
    destruct tm_nz as [? [? H1]]; destruct X2_pos as [? [? ?]].
    assert (1 - X x * (X x * 1) <> 0) by (simpl in H1; exact H1).
    auto_derive; [|change (fun x0 : R => X x0) with X; rewrite ?Hx2; reflexivity].
    repeat match goal with |- _ /\ _ => split end;
      repeat first [assumption | exact I | lra | apply mulnz | apply Rinv_neq_0_compat].
  - rewrite tm_e1_alt, tm_dV_alt. unfold tm_V, tm_eps2. fold (Y x) (X x) s.
    destruct tm_nz as [? [? ?]]. field. nzgoal.
Qed.
Lemma tm_e3 : next_in_hierarchy (tm_V p alpha L) (tm_dV p alpha L) (tm_eps2 p alpha) (tm_eps3 p alpha x) x.
Proof.
  eexists; split.
  - apply (is_derive_ext (fun t => 4 * p * (1 - X t^4) / (X t^2 * s^2))); [reflexivity|]. derX.
  - rewrite tm_dV_alt. unfold tm_V, tm_eps2, tm_eps3. fold (Y x) (X x) s.
    destruct tm_nz as [? [? H1]]; destruct X2_pos as [H2 [? ?]].
    assert (1 - X x^4 <> 0) by (replace (1 - X x^4) with ((1 - X x^2) * (1 + X x^2)) by ring; apply mulnz; assumption).
    field. nzgoal.
Qed.
Lemma tm_e4 : next_in_hierarchy (tm_V p alpha L) (tm_dV p alpha L) (tm_eps3 p alpha) (tm_eps4 p alpha x) x.
Proof.
  eexists; split.
  - apply (is_derive_ext (fun t => 4 * p * (- X t^6 + X t^4 - X t^2 + 1) / (X t^2 * s^2 * (X t^2 + 1)))); [reflexivity|].
    destruct tm_nz as [? [? H1]]; destruct X2_pos as [? [H2 ?]].
    assert (X x * (X x * 1) + 1 <> 0) by (simpl in H2; exact H2).
    auto_derive; [|change (fun x0 : R => X x0) with X; rewrite ?Hx2; reflexivity].
    repeat match goal with |- _ /\ _ => split end;
      repeat first [assumption | exact I | lra | apply mulnz | apply Rinv_neq_0_compat].
  - rewrite tm_dV_alt. unfold tm_V, tm_eps4, tm_eps3. fold (Y x) (X x) s.
    destruct tm_nz as [? [? H1]]; destruct X2_pos as [H2 [? ?]].
    assert (- X x^6 + X x^4 - X x^2 + 1 <> 0).
    { replace (- X x^6 + X x^4 - X x^2 + 1) with ((1 - X x^2) * (X x^4 + 1)) by ring. apply mulnz; [assumption|].
      assert (0 <= X x^4) by (replace (X x^4) with ((X x^2)^2) by ring; apply pow2_ge_0). lra. }
    field. nzgoal.
Qed.
End TM.

(* ------- radion gauge ------- *)
Section RG.
Variables (p alpha L x : R).
Hypothesis (Hx : pow_ok x p) (Hd : alpha + pypow x p <> 0) (HdV : rg_dV p alpha L x <> 0).
Let Y (t : R) := pypow t p.
Let HX : x <> 0 := pow_ok_neq0 _ _ Hx.
Let HY : Y x <> 0 := pypow_neq0 _ _ Hx.
Let Hd' : alpha + Y x <> 0 := Hd.
Let Hy1 : ex_derive Y x. Proof. eexists; apply is_derive_pypow, Hx. Qed.
Let Hy2 : Derive Y x = p * Y x / x. Proof. apply is_derive_unique, is_derive_pypow, Hx. Qed.
Lemma rg_dV_alt : rg_dV p alpha L x = L^4 * alpha * p * (Y x / x) / (alpha + Y x)^2.
Proof. unfold rg_dV. rewrite pypow_m1 by exact Hx. reflexivity. Qed.
Lemma rg_nz : L <> 0 /\ p <> 0 /\ alpha <> 0.
Proof. rewrite rg_dV_alt in HdV. nzs. tauto. Qed.
Lemma rg_e3_alt t : pow_ok t p -> rg_eps3 p alpha t =
  alpha * p * (p^2*(alpha - Y t) * (3*alpha - Y t)
               - 3 * p * (alpha^2*p - alpha*p*Y t - alpha*Y t - Y t^2)
               + 2 * (alpha + Y t)^2)
  / (t^2 * (alpha + Y t)^2 * (alpha + p*Y t + Y t)).
Proof. intros Ht. unfold rg_eps3. rewrite pypow_2m by exact Ht. reflexivity. Qed.
Ltac derY := destruct rg_nz as [? [? ?]];
  auto_derive; [repeat match goal with |- _ /\ _ => split end;
                 repeat first [assumption | exact I | lra | apply mulnz]
               | change (fun x0 : R => Y x0) with Y;
                 rewrite ?Hy2; reflexivity].
Lemma rg_e1 : rg_eps1 p alpha x = (rg_dV p alpha L x / rg_V p alpha L x)^2 / 2.
Proof. rewrite rg_dV_alt. unfold rg_V, rg_eps1. fold (Y x). destruct rg_nz as [? [? ?]]. field. nzgoal. Qed.
Lemma rg_e2 : next_in_hierarchy (rg_V p alpha L) (rg_dV p alpha L) (rg_eps1 p alpha) (rg_eps2 p alpha x) x.
Proof.
  eexists; split.
  - apply (is_derive_ext (fun t => alpha^2 * p^2 / (2 * t^2 * (alpha + Y t)^2))); [reflexivity|]. derY.
  - rewrite rg_dV_alt. unfold rg_V, rg_eps1, rg_eps2. fold (Y x). destruct rg_nz as [? [? ?]]. field. nzgoal.
Qed.
Lemma rg_e3 : rg_eps2 p alpha x <> 0 ->
  next_in_hierarchy (rg_V p alpha L) (rg_dV p alpha L) (rg_eps2 p alpha) (rg_eps3 p alpha x) x.
Proof.
  intros He2. unfold rg_eps2 in He2. apply div_nz_l, mul_nz_r in He2. fold (Y x) in He2.
  assert (He2' : alpha + p * Y x + Y x <> 0) by (replace (alpha + p * Y x + Y x) with (alpha + Y x * (p + 1)) by ring; exact He2).
  eexists; split.
  - apply (is_derive_ext (fun t => 2 * alpha * p * (alpha + Y t*(p+1)) / (t^2 * (alpha + Y t)^2))); [reflexivity|]. derY.
  - rewrite rg_e3_alt by exact Hx. rewrite rg_dV_alt. unfold rg_V, rg_eps2. fold (Y x). destruct rg_nz as [? [? ?]]. field. nzgoal.
Qed.
Lemma rg_e4 : rg_eps2 p alpha x <> 0 -> rg_eps3 p alpha x <> 0 ->
  next_in_hierarchy (rg_V p alpha L) (rg_dV p alpha L) (rg_eps3 p alpha) (rg_eps4 p alpha x) x.
Proof.
  intros He2. unfold rg_eps2 in He2. apply div_nz_l, mul_nz_r in He2. fold (Y x) in He2.
  assert (He2' : alpha + p * Y x + Y x <> 0) by (replace (alpha + p * Y x + Y x) with (alpha + Y x * (p + 1)) by ring; exact He2).
  intros He3. rewrite rg_e3_alt in He3 by exact Hx. apply div_nz_l, mul_nz_r in He3.
  eexists; split.
  - apply (is_derive_ext_loc (fun t => alpha * p * (p^2*(alpha - Y t) * (3*alpha - Y t)
               - 3 * p * (alpha^2*p - alpha*p*Y t - alpha*Y t - Y t^2)
               + 2 * (alpha + Y t)^2)
        / (t^2 * (alpha + Y t)^2 * (alpha + p*Y t + Y t)))).
    { generalize (pow_ok_locally x p Hx). apply filter_imp. intros t Ht. symmetry; apply rg_e3_alt, Ht. }
    derY.
  - unfold rg_eps4. rewrite pypow_2m, pypow_3m by exact Hx. rewrite rg_e3_alt by exact Hx.
    rewrite rg_dV_alt. unfold rg_V. fold (Y x). destruct rg_nz as [? [? ?]].
    replace (p ^ 3 * Y x ^ 2 * (alpha - Y x) * (alpha + Y x) ^ 2 + p ^ 2 * Y x * (alpha - 4 * Y x) * (alpha + Y x) ^ 3 -
      5 * p * Y x * (alpha + Y x) ^ 4 - 2 * (alpha + Y x) ^ 5)
      with (- (alpha + Y x)^2 * (alpha + p * Y x + Y x) * 
        (p ^ 2 * (alpha - Y x) * (3 * alpha - Y x) -
         3 * p * (alpha ^ 2 * p - alpha * p * Y x - alpha * Y x - Y x ^ 2) + 2 * (alpha + Y x) ^ 2)) by ring.
    field. nzgoal.
Qed.
End RG.
