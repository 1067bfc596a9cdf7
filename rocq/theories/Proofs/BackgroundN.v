From Coq Require Import Reals List String Lra Lia.
From Coquelicot Require Import Coquelicot.
From Verif Require Import Base Model.Potentials Model.Equations Model.Background Spec.BackgroundSpec Proofs.PhiEnd Proofs.BackgroundT.
Import ListNotations.
Open Scope R_scope.

Section N.
Variables (K : R) (U : potfun) (tt te : bool) (y : R -> list R) (a b : R).
Hypothesis B : N_background K U tt te y a b.
Notation phi := (N_phi tt te y). Notation p := (N_dphi tt te y). Notation H := (N_Hub K U tt te y).

Lemma N_comps t : a < t < b ->
  is_derive phi t (p t) /\ is_derive p t (N_d2phi K U tt te y t) /\
  (tt = true -> is_derive (N_t tt te y) t (1 / H t)) /\
  (te = true -> is_derive (N_eta tt te y) t (exp (- t) / H t)).
Proof.
  intros Ht. destruct B as [S _]. destruct (S t Ht) as [HL HD].
  unfold N_d2phi, N_Hub, N_phi, N_dphi, N_t, N_eta.
  assert (HD' : forall i, (i < 2 + (if tt then 1 else 0) + (if te then 1 else 0))%nat -> is_derive (fun s => nth i (y s) 0) t (nth i (N_call K U tt te t (y t)) 0))
    by (intros i Hi; apply HD; destruct tt; destruct te; exact Hi). clear HD.
  pose proof (HD' 0%nat ltac:(destruct tt; destruct te; lia)) as D0. pose proof (HD' 1%nat ltac:(destruct tt; destruct te; lia)) as D1.
  assert (D2 : orb tt te = true -> is_derive (fun s => nth 2 (y s) 0) t (nth 2 (N_call K U tt te t (y t)) 0))
    by (intros E; apply HD'; destruct tt; destruct te; simpl in *; try discriminate; lia).
  assert (D3 : andb tt te = true -> is_derive (fun s => nth 3 (y s) 0) t (nth 3 (N_call K U tt te t (y t)) 0))
    by (intros E; apply HD'; destruct tt; destruct te; simpl in *; try discriminate; lia).
  clear HD'. destruct tt, te; cbn in HL;
  (destruct (y t) as [|y0 [|y1 r]] eqn:Ey; try discriminate HL).
  - destruct r as [|y2 [|y3 [|]]]; try discriminate HL. specialize (D3 eq_refl). specialize (D2 eq_refl).
    split; [exact D0|]. split; [exact D1|]. split; intros _; [exact D2|exact D3].
  - destruct r as [|y2 [|]]; try discriminate HL. specialize (D2 eq_refl).
    split; [exact D0|]. split; [exact D1|]. split; [intros _; exact D2|discriminate].
  - destruct r as [|y2 [|]]; try discriminate HL. specialize (D2 eq_refl).
    split; [exact D0|]. split; [exact D1|]. split; [discriminate|intros _; exact D2].
  - destruct r as [|]; try discriminate HL.
    split; [exact D0|]. split; [exact D1|]. split; discriminate.
Qed.
Lemma N_pos t : a < t < b -> 0 < H t /\ H t * H t = N_get_H2 t (p t) (pV U (phi t)) K /\ 6 - (p t)^2 <> 0.
Proof.
  intros Ht. destruct B as [_ Q]. destruct (Q t Ht) as [HP [H6 _]]. unfold N_Hub. split; [apply sqrt_lt_R0; exact HP|].
  rewrite sqrt_sqrt by lra. split; [reflexivity|lra].
Qed.
Lemma N_smooth t : a < t < b -> smooth_pot U (phi t).
Proof. intros Ht. destruct B as [_ Q]. apply (Q t Ht). Qed.
(** V from the constraint *)
Lemma N_V t : a < t < b -> pV U (phi t) = 3 * H t^2 - (H t * p t)^2 / 2 + 3 * K * exp (-2*t).
Proof.
  intros Ht. destruct (N_pos t Ht) as [_ [E H6]]. unfold N_get_H2 in E.
  assert (E' : H t * H t * (6 - p t ^ 2) = 2 * pV U (phi t) - 6 * K * exp (-2 * t)) by (rewrite E; field; exact H6).
  nra.
Qed.
Lemma N_d2phi_eq t : a < t < b -> N_d2phi K U tt te y t = - (N_dH K U tt te y t / H t + 3) * p t - pdV U (phi t) / (H t)^2.
Proof.
  intros Ht. destruct (N_pos t Ht) as [HP [E _]]. unfold N_d2phi, N_get_d2phi, N_get_dH_H, N_dH, N_get_dH.
  replace (N_H2 K U tt te t (y t)) with (H t ^ 2); [field; lra|].
  unfold N_Hub. simpl. rewrite Rmult_1_r. apply sqrt_sqrt. destruct B as [_ Q]. left; apply (Q t Ht).
Qed.

Lemma N_H_derive t : a < t < b -> is_derive H t (N_dH K U tt te y t).
Proof.
  intros Ht. destruct (N_comps t Ht) as [D1 [D2 _]]. destruct (N_pos t Ht) as [HP [HE H6]]. destruct (N_smooth t Ht) as [V1 _].
  set (G := fun s => N_get_H2 s (p s) (pV U (phi s)) K).
  assert (DG : is_derive G t (2 * H t * N_dH K U tt te y t)).
  { pose proof (N_V t Ht) as HV. pose proof (N_d2phi_eq t Ht) as E2. rewrite E2 in D2.
    set (dv := pdV U (phi t)) in *.
    unfold G, N_get_H2. evar_last; [auto_derive; [repeat split; try exd|reflexivity]|].
    - simpl in H6. exact H6.
    - undd. rewrite HV.
    unfold N_dH, N_get_dH. toR. simpl in *. field. split; [simpl; lra|].
    intros C. apply H6. rewrite <- C. ring. }
  destruct B as [_ Q].
  apply is_derive_eq with (2 * H t * N_dH K U tt te y t / (2 * sqrt (G t))).
  - apply (is_derive_sqrt_comp G t); [exact DG|]. apply (Q t Ht).
  - change (sqrt (G t)) with (H t). toR. field. lra.
Qed.
Lemma N_dH_derive t : a < t < b -> is_derive (N_dH K U tt te y) t (N_d2H K U tt te y t).
Proof.
  intros Ht. destruct (N_comps t Ht) as [D1 [D2 _]]. pose proof (N_H_derive t Ht) as DH. destruct (N_pos t Ht) as [HP _].
  set (q := N_d2phi K U tt te y) in *. set (dh := N_dH K U tt te y) in *.
  unfold dh at 1. unfold N_dH, N_get_dH. evar_last; [auto_derive; [repeat split; try exd; try lra|reflexivity]|]. undd.
  unfold N_d2H, N_get_d2H. fold q dh. toR. simpl. field. lra.
Qed.
Lemma N_loc (t : R) : a < t < b -> locally t (fun s => a < s < b).
Proof.
  intros Ht. assert (0 < Rmin (t-a) (b-t)) as He by (apply Rmin_glb_lt; lra).
  exists (mkposreal _ He). intros z Hz. unfold ball in Hz; simpl in Hz; unfold AbsRing_ball, abs, minus, plus, opp in Hz; simpl in Hz.
  pose proof (Rmin_l (t-a) (b-t)). pose proof (Rmin_r (t-a) (b-t)). apply Rabs_lt_between in Hz. lra.
Qed.
Lemma N_d2phi_derive t : a < t < b -> is_derive (N_d2phi K U tt te y) t (N_d3phi K U tt te y t).
Proof.
  intros Ht. destruct (N_comps t Ht) as [D1 [D2 _]]. pose proof (N_H_derive t Ht) as DH. pose proof (N_dH_derive t Ht) as DdH.
  destruct (N_smooth t Ht) as [_ [V2 _]]. destruct (N_pos t Ht) as [HP _].
  apply (is_derive_ext_loc (fun s => - (N_dH K U tt te y s / H s + 3) * p s - pdV U (phi s) / (H s)^2)).
  { apply filter_imp with (2 := N_loc t Ht). intros s Hs. symmetry; apply N_d2phi_eq; exact Hs. }
  set (q := N_d2phi K U tt te y) in *. set (dh := N_dH K U tt te y) in *.
  evar_last; [auto_derive; [repeat split; try exd; try lra|reflexivity]|].
  { simpl. apply Rmult_integral_contrapositive; split; lra. }
  undd. unfold N_d3phi, N_get_d3phi. fold q dh. toR. simpl. field. lra.
Qed.
Lemma N_d2H_derive t : a < t < b -> is_derive (N_d2H K U tt te y) t (N_d3H K U tt te y t).
Proof.
  intros Ht. destruct (N_comps t Ht) as [D1 [D2 _]]. pose proof (N_H_derive t Ht) as DH. pose proof (N_dH_derive t Ht) as DdH.
  pose proof (N_d2phi_derive t Ht) as DP. destruct (N_pos t Ht) as [HP _].
  set (q := N_d2phi K U tt te y) in *. set (dh := N_dH K U tt te y) in *. set (d2h := N_d2H K U tt te y) in *.
  unfold d2h at 1. unfold N_d2H, N_get_d2H. fold q dh.
  evar_last; [auto_derive; [repeat split; try exd; try lra|reflexivity]|].
  { simpl. apply Rmult_integral_contrapositive; split; lra. }
  undd. unfold N_d3H, N_get_d3H. fold q dh d2h. toR. simpl. field. lra.
Qed.
Lemma N_d3phi_derive t : a < t < b -> is_derive (N_d3phi K U tt te y) t (N_d4phi K U tt te y t).
Proof.
  intros Ht. destruct (N_comps t Ht) as [D1 [D2 _]]. pose proof (N_H_derive t Ht) as DH. pose proof (N_dH_derive t Ht) as DdH.
  pose proof (N_d2phi_derive t Ht) as DP. pose proof (N_d2H_derive t Ht) as Dd2H. destruct (N_pos t Ht) as [HP _].
  destruct (N_smooth t Ht) as [V1 [V2 V3]].
  set (q := N_d2phi K U tt te y) in *. set (dh := N_dH K U tt te y) in *. set (d2h := N_d2H K U tt te y) in *.
  set (d3 := N_d3phi K U tt te y) in *. set (d3h := N_d3H K U tt te y) in *.
  assert (E3 : d3 t = N_get_d3phi (H t) (dh t) (d2h t) (p t) (q t) (pdV U (phi t)) (pd2V U (phi t))) by reflexivity.
  unfold d3 at 1. unfold N_d3phi, N_get_d3phi. fold q dh d2h.
  evar_last; [auto_derive; [repeat split; try exd; try lra; simpl; repeat apply Rmult_integral_contrapositive_currified; lra|reflexivity]|].
  undd. unfold N_d4phi, N_get_d4phi. fold q dh d2h d3 d3h. toR. simpl. rewrite E3. unfold N_get_d3phi. field. lra.
Qed.
End N.
