From Coq Require Import Reals List String Lra Lia.
From Coquelicot Require Import Coquelicot.
From Verif Require Import Base Model.Potentials Model.Equations Model.Background Spec.BackgroundSpec Proofs.PhiEnd.
Import ListNotations.
Open Scope R_scope.

(** turn is_derive hypotheses into what auto_derive asks for *)
Ltac exd := match goal with
  | H : is_derive ?f ?x ?l |- ex_derive ?f ?x => exists l; exact H
  | H : is_derive ?f ?x ?l |- ex_derive (fun t => ?f t) ?x => exists l; exact H
  end.
Ltac undd := repeat match goal with
  | |- context [Derive ?g ?x] => match goal with H : is_derive ?f x ?l |- _ => rewrite (is_derive_unique g x l H) end
  end.
(** from is_derive f x l' to is_derive f x l when l = l' *)
Lemma is_derive_eq (f : R -> R) x l l' : is_derive f x l' -> l = l' -> is_derive f x l.
Proof. intros H ->. exact H. Qed.
Ltac toR := match goal with |- ?a = ?b => change (@eq R a b) end.

Lemma is_derive_sqrt_comp (G : R -> R) t g : is_derive G t g -> 0 < G t ->
  is_derive (fun s => sqrt (G s)) t (g / (2 * sqrt (G t))).
Proof.
  intros D P. assert (0 < sqrt (G t)) by (apply sqrt_lt_R0; exact P).
  evar_last; [auto_derive; [split; [exd|split; [exact P|exact I]]|reflexivity]|]. undd. toR. field. lra.
Qed.

Section T.
Variables (K : R) (U : potfun) (te : bool) (y : R -> list R) (a b : R).
Hypothesis B : T_background K U te y a b.
Notation phi := (T_phi te y). Notation p := (T_dphi te y). Notation Nf := (T_N te y). Notation H := (T_Hub K U te y).

Lemma T_comps t : a < t < b ->
  is_derive phi t (p t) /\ is_derive p t (T_d2phi K U te y t) /\ is_derive Nf t (H t) /\
  (te = true -> is_derive (T_eta te y) t (exp (- Nf t))).
Proof.
  intros Ht. destruct B as [S _]. destruct (S t Ht) as [HL HD].
  unfold T_d2phi, T_Hub, T_phi, T_dphi, T_N, T_eta.
  assert (HD' : forall i, (i < 3 + (if te then 1 else 0))%nat -> is_derive (fun s => nth i (y s) 0) t (nth i (T_call K U te t (y t)) 0))
    by (intros i Hi; apply HD; destruct te; exact Hi). clear HD.
  pose proof (HD' 0%nat ltac:(destruct te; lia)) as D0. pose proof (HD' 1%nat ltac:(destruct te; lia)) as D1.
  pose proof (HD' 2%nat ltac:(destruct te; lia)) as D2.
  assert (D3 : te = true -> is_derive (fun s => nth 3 (y s) 0) t (nth 3 (T_call K U te t (y t)) 0)) by (intros E; apply HD'; rewrite E; lia).
  clear HD'. destruct te; cbn in HL;
  (destruct (y t) as [|y0 [|y1 [|y2 r]]] eqn:Ey; try discriminate HL).
  - destruct r as [|y3 [|]]; try discriminate HL. specialize (D3 eq_refl).
    split; [exact D0|]. split; [exact D1|]. split; [exact D2|]. intros _. exact D3.
  - destruct r; try discriminate HL.
    split; [exact D0|]. split; [exact D1|]. split; [exact D2|]. discriminate.
Qed.
Lemma T_pos t : a < t < b -> 0 < H t /\ H t * H t = T_get_H2 (Nf t) (p t) (pV U (phi t)) K.
Proof.
  intros Ht. destruct B as [_ Q]. destruct (Q t Ht) as [HP _]. unfold T_Hub. split; [apply sqrt_lt_R0; exact HP|].
  rewrite sqrt_sqrt by lra. reflexivity.
Qed.
Lemma T_smooth t : a < t < b -> smooth_pot U (phi t).
Proof. intros Ht. destruct B as [_ Q]. apply (Q t Ht). Qed.
Lemma T_d2phi_eq t : T_d2phi K U te y t = -3 * H t * p t - pdV U (phi t).
Proof. reflexivity. Qed.

Lemma T_H_derive t : a < t < b -> is_derive H t (T_dH K U te y t).
Proof.
  intros Ht. destruct (T_comps t Ht) as [D1 [D2 [D3 _]]]. destruct (T_pos t Ht) as [HP HE]. destruct (T_smooth t Ht) as [V1 _].
  set (G := fun s => T_get_H2 (Nf s) (p s) (pV U (phi s)) K).
  assert (DG : is_derive G t (2 * H t * T_dH K U te y t)).
  { unfold G, T_get_H2. evar_last; [auto_derive; [repeat split; exd|reflexivity]|]. undd.
    rewrite T_d2phi_eq. unfold T_dH, T_get_dH. toR. simpl. field. }
  destruct B as [_ Q].
  apply is_derive_eq with (2 * H t * T_dH K U te y t / (2 * sqrt (G t))).
  - apply (is_derive_sqrt_comp G t); [exact DG|]. apply (Q t Ht).
  - change (sqrt (G t)) with (H t). toR. field. lra.
Qed.

(** derivatives along the solution *)
Lemma T_dH_derive t : a < t < b -> is_derive (T_dH K U te y) t (T_d2H K U te y t).
Proof.
  intros Ht. destruct (T_comps t Ht) as [D1 [D2 [D3 _]]]. pose proof (T_H_derive t Ht) as DH.
  unfold T_dH, T_get_dH. evar_last; [auto_derive; [repeat split; exd|reflexivity]|]. undd.
  unfold T_d2H, T_get_d2H. toR. simpl. field.
Qed.
(** the true third derivative of phi *)
Definition T_d3true s := -3 * H s * T_d2phi K U te y s - 3 * T_dH K U te y s * p s - pd2V U (phi s) * p s.
Lemma T_d2phi_derive t : a < t < b -> is_derive (T_d2phi K U te y) t (T_d3true t).
Proof.
  intros Ht. destruct (T_comps t Ht) as [D1 [D2 [D3 _]]]. pose proof (T_H_derive t Ht) as DH.
  destruct (T_smooth t Ht) as [_ [V2 _]].
  apply (is_derive_ext (fun s => -3 * H s * p s - pdV U (phi s))); [intros s; symmetry; apply T_d2phi_eq|].
  evar_last; [auto_derive; [repeat split; exd|reflexivity]|]. undd.
  unfold T_d3true. toR. simpl. field.
Qed.
Lemma T_d2H_derive t : a < t < b ->
  is_derive (T_d2H K U te y) t
   (T_get_d3H (Nf t) (H t) (T_dH K U te y t) (T_d2H K U te y t) (p t) (T_d2phi K U te y t) (T_d3true t) K).
Proof.
  intros Ht. destruct (T_comps t Ht) as [D1 [D2 [D3 _]]]. pose proof (T_H_derive t Ht) as DH.
  pose proof (T_d2phi_derive t Ht) as DP.
  unfold T_d2H at 1. unfold T_get_d2H. set (q := T_d2phi K U te y) in *.
  evar_last; [auto_derive; [repeat split; exd|reflexivity]|]. undd.
  unfold T_get_d3H. toR. simpl. field.
Qed.
Lemma T_d3true_derive t : a < t < b ->
  is_derive T_d3true t
   (T_get_d4phi (H t) (T_dH K U te y t) (T_d2H K U te y t)
      (T_get_d3H (Nf t) (H t) (T_dH K U te y t) (T_d2H K U te y t) (p t) (T_d2phi K U te y t) (T_d3true t) K)
      (p t) (T_d2phi K U te y t) (T_d3true t) (pdV U (phi t)) (pd2V U (phi t)) (pd3V U (phi t))).
Proof.
  intros Ht. destruct (T_comps t Ht) as [D1 [D2 [D3 _]]]. pose proof (T_H_derive t Ht) as DH.
  pose proof (T_d2phi_derive t Ht) as DP. pose proof (T_dH_derive t Ht) as DdH.
  destruct (T_smooth t Ht) as [_ [_ V3]].
  unfold T_get_d4phi. set (r := T_d3true t). assert (Er : r = T_d3true t) by reflexivity.
  unfold T_d3true. set (q := T_d2phi K U te y) in *. set (dh := T_dH K U te y) in *.
  evar_last; [auto_derive; [repeat split; exd|reflexivity]|]. undd.
  rewrite Er. unfold T_d3true. fold q dh. toR. simpl. field.
Qed.
Lemma T_d3_error t : T_d3true t = T_d3phi K U te y t - 3 * K * exp (-2 * Nf t) * p t.
Proof. unfold T_d3true, T_d3phi, T_get_d3phi, T_dH, T_get_dH. field. Qed.
End T.
