From Coq Require Import Reals ZArith Lra Lia.
From Coquelicot Require Import Coquelicot.
From Verif Require Import Base Model.Potentials Spec.PotentialSpec Proofs.BaseLemmas
  Proofs.PotentialDerivs Proofs.PotentialDerivsAll Proofs.PotentialEps Proofs.PotentialEps2.
Open Scope R_scope.

Ltac eps_side HD HV HdV :=
  first [ exact HV | exact HdV | exact HD
  | apply tm_C_ok; tauto
  | match goal with
   | |- pow_ok (dw_x _ _) 2 => apply (pow_ok_int _ 2); exact (proj2 HD)
   | |- pow_ok (dw_x _ _) 4 => apply (pow_ok_int _ 4); exact (proj2 HD)
   | |- pow_ok (dw_x _ _) _ => exact (proj2 HD)
   | |- pow_ok _ 2 => apply (pow_ok_int _ 2); exact (proj1 HD)
   | |- pow_ok _ _ => exact (proj1 HD)
   | |- _ + pypow _ 2 <> 0 => rewrite rg2_pow by exact (proj1 HD); exact (proj2 HD)
   | |- _ + _ <> 0 => exact (proj2 HD)
   | |- _ <> 0 => exact (proj1 HD)
   | |- 0 < _ => exact (proj1 HD)
   end | assumption ].

Lemma eps1_all P L x : featureless P -> in_domain P x -> V P L x <> 0 -> dV P L x <> 0 ->
  eps1V P x = (dV P L x / V P L x)^2 / 2.
Proof.
  intros HF HD HV HdV. destruct P; unfold featureless, in_domain, V, dV, eps1V, eps2V, eps3V, eps4V in *; try contradiction;
  match goal with
  | |- context [quad_dV] => apply quad_e1
  | |- context [mono_dV] => apply mono_e1
  | |- context [star_dV] => apply star_e1
  | |- context [nat_dV] => apply nat_e1
  | |- context [dw_dV] => apply dw_e1
  | |- context [tm_dV] => apply tm_e1
  | |- context [rg_dV] => apply rg_e1
  end;
  eps_side HD HV HdV.
Qed.
Lemma eps2_all P L x : featureless P -> in_domain P x -> V P L x <> 0 -> dV P L x <> 0 ->
  next_in_hierarchy (V P L) (dV P L) (eps1V P) (eps2V P x) x.
Proof.
  intros HF HD HV HdV. destruct P; unfold featureless, in_domain, V, dV, eps1V, eps2V, eps3V, eps4V in *; try contradiction;
  match goal with
  | |- context [quad_dV] => apply quad_e2
  | |- context [mono_dV] => apply mono_e2
  | |- context [star_dV] => apply star_e2
  | |- context [nat_dV] => apply nat_e2
  | |- context [dw_dV] => apply dw_e2
  | |- context [tm_dV] => apply tm_e2
  | |- context [rg_dV] => apply rg_e2
  end;
  eps_side HD HV HdV.
Qed.
Lemma eps3_all P L x : featureless P -> in_domain P x -> V P L x <> 0 -> dV P L x <> 0 -> eps2V P x <> 0 ->
  next_in_hierarchy (V P L) (dV P L) (eps2V P) (eps3V P x) x.
Proof.
  intros HF HD HV HdV H2. destruct P; unfold featureless, in_domain, V, dV, eps1V, eps2V, eps3V, eps4V in *; try contradiction;
  match goal with
  | |- context [quad_dV] => apply quad_e3
  | |- context [mono_dV] => apply mono_e3
  | |- context [star_dV] => apply star_e3
  | |- context [nat_dV] => apply nat_e3
  | |- context [dw_dV] => apply dw_e3
  | |- context [tm_dV] => apply tm_e3
  | |- context [rg_dV] => apply rg_e3
  end;
  eps_side HD HV HdV.
Qed.
Lemma eps4_all P L x : featureless P -> in_domain P x -> V P L x <> 0 -> dV P L x <> 0 ->
  eps2V P x <> 0 -> eps3V P x <> 0 ->
  next_in_hierarchy (V P L) (dV P L) (eps3V P) (eps4V P x) x.
Proof.
  intros HF HD HV HdV H2 H3. destruct P; unfold featureless, in_domain, V, dV, eps1V, eps2V, eps3V, eps4V in *; try contradiction;
  match goal with
  | |- context [quad_dV] => apply quad_e3
  | |- context [mono_dV] => apply mono_e4
  | |- context [star_dV] => apply star_e4
  | |- context [nat_dV] => apply nat_e4
  | |- context [dw_dV] => apply dw_e4
  | |- context [tm_dV] => apply tm_e4
  | |- context [rg_dV] => apply rg_e4
  end;
  eps_side HD HV HdV.
Qed.
