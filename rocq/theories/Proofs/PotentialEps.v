From Coq Require Import Reals ZArith Lra Lia.
From Coquelicot Require Import Coquelicot.
From Verif Require Import Base Model.Potentials Spec.PotentialSpec Proofs.BaseLemmas
  Proofs.PotentialDerivs Proofs.PotentialDerivsAll.
Open Scope R_scope.

Lemma mul_nz_l a b : a * b <> 0 -> a <> 0.
Proof. intros H E; apply H; rewrite E; ring. Qed.
Lemma mul_nz_r a b : a * b <> 0 -> b <> 0.
Proof. intros H E; apply H; rewrite E; ring. Qed.
Lemma div_nz_l a b : a / b <> 0 -> a <> 0.
Proof. apply mul_nz_l. Qed.
Lemma div_nz_r a b : a / b <> 0 -> b <> 0.
Proof. intros H E; apply H; rewrite E. unfold Rdiv. rewrite Rinv_0; ring. Qed.
Lemma pow_nz a n : a ^ (S n) <> 0 -> a <> 0.
Proof. intros H E; apply H; rewrite E; simpl; ring. Qed.

(* destruct nonzero products in hypotheses *)
Ltac nzs := repeat match goal with
  | H : ?a * ?b <> 0 |- _ => pose proof (mul_nz_l _ _ H); pose proof (mul_nz_r _ _ H); clear H
  | H : ?a / ?b <> 0 |- _ => pose proof (div_nz_l _ _ H); pose proof (div_nz_r _ _ H); clear H
  | H : ?a ^ (S _) <> 0 |- _ => apply pow_nz in H
  end.
Ltac nzgoal := repeat split; repeat first [assumption | lra | apply mulnz | apply pow_nonzero ].

(* ------- monomial ------- *)
Section Mono.
Variables (p L x : R).
Hypothesis (Hx : x <> 0) (HV : mono_V p L x <> 0) (HdV : mono_dV p L x <> 0).
Lemma mono_pL : p <> 0 /\ L <> 0 /\ pypow (Rabs x) p <> 0.
Proof. rewrite mono_dV_alt in HdV by exact Hx. nzs. tauto. Qed.
Lemma mono_e1 : mono_eps1 p x = (mono_dV p L x / mono_V p L x)^2 / 2.
Proof.
  rewrite mono_dV_alt by exact Hx. unfold mono_eps1, mono_V. destruct mono_pL as [? [? ?]].
  field. repeat split; assumption.
Qed.
Lemma mono_e2 : next_in_hierarchy (mono_V p L) (mono_dV p L) (mono_eps1 p) (mono_eps2 p x) x.
Proof.
  destruct mono_pL as [? [? ?]].
  eexists; split; [unfold mono_eps1; auto_derive; [nzgoal|reflexivity]|].
  rewrite mono_dV_alt by exact Hx. unfold mono_V, mono_eps1, mono_eps2. field. nzgoal.
Qed.
Lemma mono_e3 : next_in_hierarchy (mono_V p L) (mono_dV p L) (mono_eps2 p) (mono_eps3 p x) x.
Proof.
  destruct mono_pL as [? [? ?]].
  eexists; split; [unfold mono_eps2; auto_derive; [nzgoal|reflexivity]|].
  rewrite mono_dV_alt by exact Hx. unfold mono_V, mono_eps3, mono_eps2. field. nzgoal.
Qed.
Lemma mono_e4 : next_in_hierarchy (mono_V p L) (mono_dV p L) (mono_eps3 p) (mono_eps4 p x) x.
Proof. exact mono_e3. Qed.
End Mono.

(* ------- quadratic: V and dV are overridden ------- *)
Section Quad.
Variables (L x : R).
Hypothesis (HV : quad_V L x <> 0).
Lemma quad_nz : L <> 0 /\ x <> 0.
Proof. unfold quad_V in HV. nzs. tauto. Qed.
Lemma quad_e1 : mono_eps1 2 x = (quad_dV L x / quad_V L x)^2 / 2.
Proof. unfold mono_eps1, quad_dV, quad_V. destruct quad_nz. field. nzgoal. Qed.
Lemma quad_e2 : next_in_hierarchy (quad_V L) (quad_dV L) (mono_eps1 2) (mono_eps2 2 x) x.
Proof.
  destruct quad_nz. eexists; split; [unfold mono_eps1; auto_derive; [nzgoal|reflexivity]|].
  unfold quad_V, quad_dV, mono_eps1, mono_eps2. field. nzgoal.
Qed.
Lemma quad_e3 : next_in_hierarchy (quad_V L) (quad_dV L) (mono_eps2 2) (mono_eps3 2 x) x.
Proof.
  destruct quad_nz. eexists; split; [unfold mono_eps2; auto_derive; [nzgoal|reflexivity]|].
  unfold quad_V, quad_dV, mono_eps3, mono_eps2. field. nzgoal.
Qed.
End Quad.

(* ------- Starobinsky ------- *)
Section Star.
Variables (L x : R).
Lemma gamma_gt0 : 0 < gamma.
Proof. apply sqrt_lt_R0; lra. Qed.
Hypothesis (HV : star_V L x <> 0).
Let E t := exp (gamma * t).
Let HE : forall t, is_derive E t (gamma * E t).
Proof. intros t. unfold E. auto_derive; [exact I|ring]. Qed.
Let HE1 : forall t, ex_derive E t. Proof. intros t; eexists; apply HE. Qed.
Let HE2 : forall t, Derive E t = gamma * E t. Proof. intros t; apply is_derive_unique, HE. Qed.
Let HE0 : forall t, 0 < E t. Proof. intros; apply exp_pos. Qed.

Lemma star_nz : L <> 0 /\ E x - 1 <> 0 /\ 1 - E x <> 0.
Proof.
  unfold star_V in HV. nzs.
  assert (1 - exp (- gamma * x) <> 0) by assumption.
  assert (E x - 1 <> 0).
  { intros H3. apply H1. rewrite exp_m1, exp_Ropp. fold (E x). replace (E x) with 1 by lra. field. }
  repeat split; try assumption. lra.
Qed.
Lemma sinh_half t : (sinh (gamma * t / 2))^2 = (E t - 1)^2 / (4 * E t).
Proof.
  unfold sinh. rewrite exp_Ropp. unfold E.
  replace (gamma * t) with (gamma * t / 2 + gamma * t / 2) at 3 4 by field. rewrite exp_plus.
  pose proof (exp_pos (gamma * t / 2)). field. lra.
Qed.
Lemma star_dV_E t : star_dV L t = L^4 * 2 * gamma * (E t - 1) / (E t)^2.
Proof.
  unfold star_dV. rewrite exp_m2, exp_Ropp. fold (E t). pose proof (HE0 t). field. lra.
Qed.
Lemma star_V_E t : star_V L t = L^4 * (E t - 1)^2 / (E t)^2.
Proof.
  unfold star_V. rewrite exp_m1, exp_Ropp. fold (E t). pose proof (HE0 t). field. lra.
Qed.
Ltac fin := pose proof gamma_gt0; pose proof (HE0 x); destruct star_nz as [? [? ?]]; field; nzgoal.
Ltac derE := pose proof gamma_gt0; pose proof (HE0 x); destruct star_nz as [? [? ?]];
  auto_derive; [repeat match goal with |- _ /\ _ => split end;
                 repeat first [assumption | exact I | apply HE1 | lra | apply mulnz]
               | change (fun x0 : R => E x0) with E; rewrite HE2; reflexivity].
Lemma star_e1 : star_eps1 x = (star_dV L x / star_V L x)^2 / 2.
Proof. unfold star_eps1. rewrite star_dV_E, star_V_E. fold (E x). fin. Qed.
Lemma star_e2 : next_in_hierarchy (star_V L) (star_dV L) star_eps1 (star_eps2 x) x.
Proof.
  eexists; split.
  - apply (is_derive_ext (fun t => 2 * gamma^2 / (1 - E t)^2)); [reflexivity|]. derE.
  - unfold star_eps2, star_eps1. rewrite sinh_half, star_dV_E, star_V_E. fold (E x). fin.
Qed.
Lemma star_e3 : next_in_hierarchy (star_V L) (star_dV L) star_eps2 (star_eps3 x) x.
Proof.
  eexists; split.
  - apply (is_derive_ext (fun t => gamma^2 / ((E t - 1)^2 / (4 * E t)))).
    { intros t; unfold star_eps2; rewrite sinh_half; reflexivity. }
    pose proof gamma_gt0; pose proof (HE0 x); destruct star_nz as [? [? ?]].
    auto_derive; [|change (fun x0 : R => E x0) with E; rewrite HE2; reflexivity].
    repeat match goal with |- _ /\ _ => split end;
      repeat first [assumption | exact I | apply HE1 | lra | apply mulnz | apply Rinv_neq_0_compat].
  - unfold star_eps2, star_eps3. rewrite sinh_half, star_dV_E, star_V_E. fold (E x). fin.
Qed.
Lemma star_e4 : next_in_hierarchy (star_V L) (star_dV L) star_eps3 (star_eps4 x) x.
Proof.
  eexists; split.
  - apply (is_derive_ext (fun t => 2 * gamma^2 * (E t + 1) / (E t - 1)^2)); [reflexivity|].
    derE.
  - unfold star_eps4, star_eps3. rewrite sinh_half, star_dV_E, star_V_E. fold (E x). fin.
Qed.
End Star.

(* ------- natural ------- *)
Section Nat.
Variables (phi0 L x : R).
Hypothesis (H0 : phi0 <> 0) (HV : nat_V phi0 L x <> 0) (HdV : nat_dV phi0 L x <> 0).
Let c t := cos (PI * t / phi0).
Let s t := sin (PI * t / phi0).
Let Hc : forall t, is_derive c t (- (PI / phi0) * s t).
Proof. intros t; unfold c, s. auto_derive; [exact I|unfold Rdiv; ring]. Qed.
Let Hs : forall t, is_derive s t (PI / phi0 * c t).
Proof. intros t; unfold c, s. auto_derive; [exact I|unfold Rdiv; ring]. Qed.
Let Hc1 : forall t, ex_derive c t. Proof. intros t; eexists; apply Hc. Qed.
Let Hs1 : forall t, ex_derive s t. Proof. intros t; eexists; apply Hs. Qed.
Let Hc2 : forall t, Derive c t = - (PI / phi0) * s t. Proof. intros t; apply is_derive_unique, Hc. Qed.
Let Hs2 : forall t, Derive s t = PI / phi0 * c t. Proof. intros t; apply is_derive_unique, Hs. Qed.
Let Hsc : (s x)^2 = (1 - c x) * (1 + c x).
Proof. unfold s, c. pose proof (sin2_cos2 (PI * x / phi0)) as H. unfold Rsqr in H. simpl. nra. Qed.
Let Hpi : PI <> 0. Proof. apply PI_neq0. Qed.
Lemma nat_nz : L <> 0 /\ c x - 1 <> 0 /\ 1 - c x <> 0 /\ s x <> 0 /\ 1 + c x <> 0.
Proof.
  unfold nat_V, nat_dV in HV, HdV. nzs.
  assert (1 - c x <> 0) by assumption. assert (s x <> 0) by assumption.
  repeat split; try assumption; try lra.
  intros E. assert (Hz : (s x)^2 = 0) by (rewrite Hsc, E; ring). assert (Hz2 : (s x)^2 <> 0) by (apply pow_nonzero; assumption). contradiction.
Qed.
Ltac derC := destruct nat_nz as [? [? [? [? ?]]]];
  auto_derive; [repeat match goal with |- _ /\ _ => split end;
                 repeat first [assumption | exact I | apply Hc1 | apply Hs1 | lra | apply mulnz]
               | change (fun x0 : R => c x0) with c; change (fun x0 : R => s x0) with s;
                 rewrite ?Hc2, ?Hs2; reflexivity].
Lemma nat_e1 : nat_eps1 phi0 x = (nat_dV phi0 L x / nat_V phi0 L x)^2 / 2.
Proof.
  unfold nat_eps1, nat_dV, nat_V. fold (c x) (s x). destruct nat_nz as [? [? [? [? ?]]]]. field. nzgoal.
Qed.
Lemma nat_e2 : next_in_hierarchy (nat_V phi0 L) (nat_dV phi0 L) (nat_eps1 phi0) (nat_eps2 phi0 x) x.
Proof.
  eexists; split.
  - apply (is_derive_ext (fun t => PI^2 * s t^2 / (2 * phi0^2 * (c t - 1)^2))); [reflexivity|]. derC.
  - unfold nat_eps2, nat_eps1, nat_dV, nat_V. fold (c x) (s x).
    destruct nat_nz as [? [? [? [? ?]]]].
    match goal with |- _ = ?r => transitivity (2 * PI^2 / phi0^2 * (s x ^2 - c x * (1 - c x)) / (1 - c x)^2) end.
    + rewrite Hsc. field. nzgoal.
    + field. nzgoal.
Qed.
Lemma nat_e3 : next_in_hierarchy (nat_V phi0 L) (nat_dV phi0 L) (nat_eps2 phi0) (nat_eps3 phi0 x) x.
Proof.
  eexists; split.
  - apply (is_derive_ext (fun t => -2 * PI^2 / (phi0^2 * (c t - 1)))); [reflexivity|]. derC.
  - unfold nat_eps2, nat_eps3, nat_dV, nat_V. fold (c x) (s x).
    destruct nat_nz as [? [? [? [? ?]]]]. field. nzgoal.
Qed.
Lemma nat_e4 : next_in_hierarchy (nat_V phi0 L) (nat_dV phi0 L) (nat_eps3 phi0) (nat_eps4 phi0 x) x.
Proof.
  eexists; split.
  - apply (is_derive_ext (fun t => PI^2 * s t^2 / (phi0^2 * (c t - 1)^2))); [reflexivity|]. derC.
  - unfold nat_eps4, nat_eps3, nat_dV, nat_V. fold (c x) (s x).
    destruct nat_nz as [? [? [? [? ?]]]].
    match goal with |- _ = ?r => transitivity (2 * PI^2 / phi0^2 * (s x ^2 - c x * (1 - c x)) / (1 - c x)^2) end.
    + rewrite Hsc. field. nzgoal.
    + field. nzgoal.
Qed.
End Nat.
