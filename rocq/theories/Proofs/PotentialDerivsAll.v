From Coq Require Import Reals ZArith Lra Lia.
From Coquelicot Require Import Coquelicot.
From Verif Require Import Base Model.Potentials Spec.PotentialSpec Proofs.BaseLemmas Proofs.PotentialDerivs.
Open Scope R_scope.

Lemma derivs4 (D : R -> Prop) f f1 f2 f3 f4 :
  (forall t, D t -> locally t D) ->
  (forall t, D t -> is_derive f t (f1 t)) -> (forall t, D t -> is_derive f1 t (f2 t)) ->
  (forall t, D t -> is_derive f2 t (f3 t)) -> (forall t, D t -> is_derive f3 t (f4 t)) ->
  forall x, D x -> derivatives_upto4 f f1 f2 f3 f4 x.
Proof.
  intros HD H1 H2 H3 H4.
  assert (E1 : forall t, D t -> Derive_n f 1 t = f1 t).
  { intros t Ht. simpl. apply is_derive_unique, H1, Ht. }
  assert (D2 : forall t, D t -> is_derive (Derive_n f 1) t (f2 t)).
  { intros t Ht. apply (is_derive_ext_loc f1); [|apply H2, Ht].
    generalize (HD t Ht). apply filter_imp. intros u Hu; symmetry; apply E1, Hu. }
  assert (E2 : forall t, D t -> Derive_n f 2 t = f2 t).
  { intros t Ht. apply is_derive_unique, D2, Ht. }
  assert (D3 : forall t, D t -> is_derive (Derive_n f 2) t (f3 t)).
  { intros t Ht. apply (is_derive_ext_loc f2); [|apply H3, Ht].
    generalize (HD t Ht). apply filter_imp. intros u Hu; symmetry; apply E2, Hu. }
  assert (E3 : forall t, D t -> Derive_n f 3 t = f3 t).
  { intros t Ht. apply is_derive_unique, D3, Ht. }
  assert (D4 : forall t, D t -> is_derive (Derive_n f 3) t (f4 t)).
  { intros t Ht. apply (is_derive_ext_loc f3); [|apply H4, Ht].
    generalize (HD t Ht). apply filter_imp. intros u Hu; symmetry; apply E3, Hu. }
  intros x Hx. split; [|split; [|split]].
  - apply H1, Hx.
  - apply D2, Hx.
  - apply D3, Hx.
  - apply D4, Hx.
Qed.

Lemma pow_ok_int x z : x <> 0 -> pow_ok x (IZR z).
Proof. intros H. destruct (Rlt_dec 0 x); [left; assumption|right; split; [lra|exists z; reflexivity]]. Qed.

Lemma tm_C_ok p alpha phi : 0 < alpha -> phi <> 0 -> (0 < phi \/ exists z : Z, 2 * p = IZR z) ->
  pow_ok (tm_C alpha phi) (2 * p).
Proof.
  intros Ha H0 H. pose proof (s6a_gt0 alpha Ha) as Hs. unfold tm_C.
  destruct (Rlt_dec 0 phi) as [Hp|Hn].
  - left. apply tanh_gt0, Rdiv_lt_0_compat; assumption.
  - right. split.
    + assert (0 < tanh (- (phi / s_6_a alpha))).
      { apply tanh_gt0. replace (- (phi / s_6_a alpha)) with ((- phi) / s_6_a alpha) by (field; lra).
        apply Rdiv_lt_0_compat; lra. }
      rewrite tanh_opp in H1. lra.
    + destruct H as [H|H]; [lra|exact H].
Qed.

Lemma rg2_pow x : x <> 0 -> pypow x 2 = x^2.
Proof. intros H. replace 2 with (INR 2) at 1 by (simpl; ring). apply pypow_nat; exact H. Qed.

Lemma locally_cont_neq (f : R -> R) x c : continuous f x -> f x <> c -> locally x (fun t => f t <> c).
Proof. intros C H. exact (C _ (open_neq c (f x) H)). Qed.

Lemma in_domain_open P phi : in_domain P phi -> locally phi (in_domain P).
Proof.
  destruct P; simpl; intros H; try (apply neq0_locally; exact H);
    try (apply filter_forall; intros; exact H).
  - destruct H as [H0 H]. generalize (dw_dom_loc p phi0 H0 phi H). apply filter_imp. intros t Ht; split; [exact H0|exact Ht].
  - destruct H as [H0 H]. apply (filter_imp (fun t => 1 - t / phi0 <> 0)); [intros t Ht; split; assumption|].
    apply (locally_cont_neq (fun t => 1 - t / phi0)); [|exact H].
    apply (ex_derive_continuous (fun t => 1 - t / phi0)). auto_derive; exact I.
  - destruct H as [H0 H]. apply (filter_imp (fun t => 1 - t / phi0 <> 0)); [intros t Ht; split; assumption|].
    apply (locally_cont_neq (fun t => 1 - t / phi0)); [|exact H].
    apply (ex_derive_continuous (fun t => 1 - t / phi0)). auto_derive; exact I.
  - destruct H as [Ha [H0 H]]. destruct H as [H|H].
    + apply (filter_imp (fun t => 0 < t)); [|apply open_gt; exact H].
      intros t Ht; split; [exact Ha|split; [lra|left; exact Ht]].
    + apply (filter_imp (fun t => t <> 0)); [|apply neq0_locally; exact H0].
      intros t Ht; split; [exact Ha|split; [exact Ht|right; exact H]].
  - destruct H as [H0 H]. apply filter_and; [apply pow_ok_locally; exact H0|].
    apply (locally_cont_neq (fun t => alpha + pypow t p)); [|exact H].
    apply (ex_derive_continuous (fun t => alpha + pypow t p)).
    exists (0 + p * pypow phi p / phi).
    apply (is_derive_plus (fun _ => alpha) (fun t => pypow t p)); [apply (is_derive_const alpha)|apply is_derive_pypow; exact H0].
  - destruct H as [H0 H]. apply filter_and; [apply neq0_locally; exact H0|].
    apply (locally_cont_neq (fun t => alpha + t^2)); [|exact H].
    apply (ex_derive_continuous (fun t => alpha + t^2)). auto_derive; exact I.
Qed.

Lemma potential_derivatives P L phi : featureless P -> in_domain P phi ->
  derivatives_upto4 (V P L) (dV P L) (d2V P L) (d3V P L) (d4V P L) phi.
Proof.
  intros HF HD.
  apply (derivs4 (in_domain P)); [apply in_domain_open| | | | |exact HD];
   intros t Ht; destruct P; simpl in HF, HD, Ht; try contradiction;
   cbn [V dV d2V d3V d4V];
   match goal with
   | |- is_derive _ _ (mono_dV _ _ _) => apply mono_D1
   | |- is_derive _ _ (mono_d2V _ _ _) => apply mono_D2
   | |- is_derive _ _ (mono_d3V _ _ _) => apply mono_D3
   | |- is_derive _ _ (mono_d4V _ _ _) => apply mono_D4
   | |- is_derive _ _ (star_dV _ _) => apply star_D1
   | |- is_derive _ _ (star_d2V _ _) => apply star_D2
   | |- is_derive _ _ (star_d3V _ _) => apply star_D3
   | |- is_derive _ _ (star_d4V _ _) => apply star_D4
   | |- is_derive _ _ (nat_dV _ _ _) => apply nat_D1
   | |- is_derive _ _ (nat_d2V _ _ _) => apply nat_D2
   | |- is_derive _ _ (nat_d3V _ _ _) => apply nat_D3
   | |- is_derive _ _ (nat_d4V _ _ _) => apply nat_D4
   | |- is_derive _ _ (dw_dV _ _ _ _) => apply dw_D1
   | |- is_derive _ _ (dw_d2V _ _ _ _) => apply dw_D2
   | |- is_derive _ _ (dw_d3V _ _ _ _) => apply dw_D3
   | |- is_derive _ _ (dw_d4V _ _ _ _) => apply dw_D4
   | |- is_derive _ _ (tm_dV _ _ _ _) => apply tm_D1
   | |- is_derive _ _ (tm_d2V _ _ _ _) => apply tm_D2
   | |- is_derive _ _ (tm_d3V _ _ _ _) => apply tm_D3
   | |- is_derive _ _ (tm_d4V _ _ _ _) => apply tm_D4
   | |- is_derive _ _ (rg_dV _ _ _ _) => apply rg_D1
   | |- is_derive _ _ (rg_d2V _ _ _ _) => apply rg_D2
   | |- is_derive _ _ (rg_d3V _ _ _ _) => apply rg_D3
   | |- is_derive _ _ (rg_d4V _ _ _ _) => apply rg_D4
   | |- is_derive _ _ (quad_dV _ _) => apply quad_D1
   | |- is_derive _ _ (quad_d2V _ _) => apply quad_D2
   | |- is_derive _ _ (quad_d3V _) => apply quad_D3
   | |- is_derive _ _ (quad_d4V _) => apply quad_D4
   | |- ?g => idtac g
   end;
   try exact Ht;
   match goal with
   | |- pow_ok _ (2 * _) => apply tm_C_ok; tauto
   | |- pow_ok (dw_x _ _) 2 => apply (pow_ok_int _ 2); exact (proj2 Ht)
   | |- pow_ok (dw_x _ _) 4 => apply (pow_ok_int _ 4); exact (proj2 Ht)
   | |- pow_ok (dw_x _ _) _ => exact (proj2 Ht)
   | |- pow_ok _ 2 => apply (pow_ok_int _ 2); exact (proj1 Ht)
   | |- pow_ok _ _ => exact (proj1 Ht)
   | |- _ + pypow _ 2 <> 0 => rewrite rg2_pow by exact (proj1 Ht); exact (proj2 Ht)
   | |- _ + _ <> 0 => exact (proj2 Ht)
   | |- _ <> 0 => exact (proj1 Ht)
   | |- 0 < _ => exact (proj1 Ht)
   end.
Qed.

Definition derivatives_upto3 (f f1 f2 f3 : R -> R) (x : R) : Prop :=
  is_derive_n f 1 x (f1 x) /\ is_derive_n f 2 x (f2 x) /\ is_derive_n f 3 x (f3 x).

Lemma derivs3 f f1 f2 f3 :
  (forall t, is_derive f t (f1 t)) -> (forall t, is_derive f1 t (f2 t)) ->
  (forall t, is_derive f2 t (f3 t)) -> forall x, derivatives_upto3 f f1 f2 f3 x.
Proof.
  intros H1 H2 H3 x.
  assert (E1 : forall t, Derive_n f 1 t = f1 t) by (intros t; apply is_derive_unique, H1).
  assert (D2 : forall t, is_derive (Derive_n f 1) t (f2 t)).
  { intros t. apply (is_derive_ext f1); [intros; symmetry; apply E1|apply H2]. }
  assert (E2 : forall t, Derive_n f 2 t = f2 t) by (intros t; apply is_derive_unique, D2).
  split; [apply H1|split; [apply D2|]].
  apply (is_derive_ext f2); [intros; symmetry; apply E2|apply H3].
Qed.

Lemma feature_derivatives P L phi : ~ featureless P -> in_domain P phi ->
  derivatives_upto3 (V P L) (dV P L) (d2V P L) (d3V P L) phi.
Proof.
  intros HF HD. destruct P; simpl in HF; try tauto; simpl in HD; simpl.
  - apply derivs3; intros t.
    + apply feat_D1; [apply star_D1|intros; apply gd_D1; exact HD].
    + apply feat_D2; [apply star_D1|apply star_D2|intros; apply gd_D1; exact HD|intros; apply gd_D2; exact HD].
    + apply feat_D3; [apply star_D1|apply star_D2|apply star_D3|intros; apply gd_D1; exact HD
                     |intros; apply gd_D2; exact HD|intros; apply gd_D3; exact HD].
  - apply derivs3; intros t.
    + apply feat_D1; [apply star_D1|intros; apply ts_D1; exact HD].
    + apply feat_D2; [apply star_D1|apply star_D2|intros; apply ts_D1; exact HD|intros; apply ts_D2; exact HD].
    + apply feat_D3; [apply star_D1|apply star_D2|apply star_D3|intros; apply ts_D1; exact HD
                     |intros; apply ts_D2; exact HD|intros; apply ts_D3; exact HD].
Qed.
