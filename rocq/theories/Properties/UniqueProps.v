(** C110: the state at one moment determines the whole evolution. *)
From Coq Require Import Reals List String Lra Lia.
From Coquelicot Require Import Coquelicot.
From Verif Require Import Base Model.Potentials Model.Equations Model.Background Spec.BackgroundSpec
  Proofs.BackgroundT Proofs.BackgroundN Proofs.Unique Proofs.BackgroundEx Properties.BackgroundProps.
Import ListNotations.
Open Scope R_scope.
Open Scope string_scope.

Lemma is_derive_sub (f g : R -> R) x df dg : is_derive f x df -> is_derive g x dg -> is_derive (fun s => f s - g s) x (df - dg).
Proof. intros A B. exact (@is_derive_minus R_AbsRing R_NormedModule f g x df dg A B). Qed.

Section Time.
Variables (K : R) (U : potfun) (te : bool) (y z : R -> list R) (a b : R).
Hypothesis By : T_background K U te y a b.
Hypothesis Bz : T_background K U te z a b.
Lemma T_core c d t0 : a < c -> d < b -> c <= t0 <= d ->
  T_phi te y t0 = T_phi te z t0 -> T_dphi te y t0 = T_dphi te z t0 -> T_N te y t0 = T_N te z t0 ->
  forall t, c <= t <= d -> T_phi te y t = T_phi te z t /\ T_dphi te y t = T_dphi te z t /\ T_N te y t = T_N te z t.
Proof.
  intros Hc Hd Ht0 E1 E2 E3. assert (L : c <= d) by lra.
  assert (IN : forall s, c <= s <= d -> a < s < b) by (intros; lra).
  assert (Dy := fun s Hs => T_comps K U te y a b By s (IN s Hs)). assert (Dz := fun s Hs => T_comps K U te z a b Bz s (IN s Hs)).
  assert (C1 : cont_in (T_phi te y) c d) by (apply (deriv_cont _ (T_dphi te y)); intros s Hs; apply (Dy s Hs)).
  assert (C2 : cont_in (T_phi te z) c d) by (apply (deriv_cont _ (T_dphi te z)); intros s Hs; apply (Dz s Hs)).
  assert (C3 : cont_in (T_N te y) c d) by (apply (deriv_cont _ (T_Hub K U te y)); intros s Hs; apply (Dy s Hs)).
  assert (C4 : cont_in (T_N te z) c d) by (apply (deriv_cont _ (T_Hub K U te z)); intros s Hs; apply (Dz s Hs)).
  destruct (range _ _ c d t0 Ht0 C1 C2 E1) as (m & M & LM & RG & FILL).
  assert (SM : forall x, m <= x <= M -> smooth_pot U x).
  { intros x Hx. destruct (FILL x Hx) as (s & Hs & [<-|<-]); [exact (T_smooth K U te y a b By s (IN s Hs))|exact (T_smooth K U te z a b Bz s (IN s Hs))]. }
  destruct (bounded (pdV U) m M LM) as (L1 & L1p & B1); [apply (deriv_cont _ (pd2V U)); intros s Hs; apply (SM s Hs)|].
  destruct (bounded (pd2V U) m M LM) as (L2 & L2p & B2); [apply (deriv_cont _ (pd3V U)); intros s Hs; apply (SM s Hs)|].
  destruct (range _ _ c d t0 Ht0 C3 C4 E3) as (n0 & n1 & LN & RN & _).
  assert (DE : forall x, is_derive (fun x => exp (-2 * x)) x (-2 * exp (-2 * x))) by (intros; auto_derive; [exact I|ring]).
  destruct (bounded (fun x => -2 * exp (-2 * x)) n0 n1 LN) as (L3 & L3p & B3).
  { apply (deriv_cont _ (fun x => 4 * exp (-2 * x))). intros s _. auto_derive; [exact I|ring]. }
  destruct (bounded (T_dphi te y) c d L) as (P1 & P1p & BP1); [apply (deriv_cont _ (T_d2phi K U te y)); intros s Hs; apply (Dy s Hs)|].
  destruct (bounded (T_dphi te z) c d L) as (P2 & P2p & BP2); [apply (deriv_cont _ (T_d2phi K U te z)); intros s Hs; apply (Dz s Hs)|].
  assert (CH : cont_in (T_Hub K U te y) c d) by (apply (deriv_cont _ (T_dH K U te y)); intros s Hs; exact (T_H_derive K U te y a b By s (IN s Hs))).
  destruct (bounded _ c d L CH) as (Q & Qp & BQ).
  destruct (bounded_below _ c d L CH) as (h & hp & Bh).
  { intros s Hs. pose proof (proj1 (T_pos K U te y a b By s (IN s Hs))). lra. }
  set (A1 := L1 * / 3 * / h). set (A2 := (P1 + P2) * / 6 * / h). set (A3 := Rabs K * L3 * / h).
  assert (P0 : 0 <= A1 /\ 0 <= A2 /\ 0 <= A3).
  { assert (0 < / h) by (apply Rinv_0_lt_compat; exact hp). pose proof (Rabs_pos K). unfold A1, A2, A3. repeat split; repeat apply Rmult_le_pos; lra. }
  set (S1 := A1 + A2 + A3). set (S2 := (3 * P2 * A1 + L2) + (3 * Q + 3 * P2 * A2) + 3 * P2 * A3).
  assert (Q0 : 0 <= 3 * P2 * A1 /\ 0 <= 3 * P2 * A2 /\ 0 <= 3 * P2 * A3) by (destruct P0 as (U1 & U2 & U3); repeat split; (apply Rmult_le_pos; [lra|assumption])).
  set (C := 1 + S1 + S2). assert (CP : 0 <= C) by (unfold C, S1, S2; lra).
  (* the differences *)
  assert (DD : forall t, c <= t <= d ->
    (T_phi te y t - T_phi te z t)^2 + (T_dphi te y t - T_dphi te z t)^2 + (T_N te y t - T_N te z t)^2 <=
    ((T_phi te y t0 - T_phi te z t0)^2 + (T_dphi te y t0 - T_dphi te z t0)^2 + (T_N te y t0 - T_N te z t0)^2) * exp (6 * C * Rabs (t - t0))).
  { apply (stays_zero3 (fun s => T_phi te y s - T_phi te z s) (fun s => T_dphi te y s - T_dphi te z s) (fun s => T_N te y s - T_N te z s)
      (fun s => T_dphi te y s - T_dphi te z s) (fun s => T_d2phi K U te y s - T_d2phi K U te z s) (fun s => T_Hub K U te y s - T_Hub K U te z s) c d C t0 Ht0); [|exact CP|].
    - intros s Hs. destruct (Dy s Hs) as (X1 & X2 & X3 & _). destruct (Dz s Hs) as (Y1 & Y2 & Y3 & _).
      split; [apply is_derive_sub; assumption|]. split; apply is_derive_sub; assumption.
    - intros s Hs. cbn zeta. set (x := T_phi te y s - T_phi te z s). set (p := T_dphi te y s - T_dphi te z s). set (n := T_N te y s - T_N te z s).
      assert (NN : 0 <= Rabs x + Rabs p + Rabs n) by (pose proof (Rabs_pos x); pose proof (Rabs_pos p); pose proof (Rabs_pos n); lra).
      destruct (RG s Hs) as [R1 R2]. destruct (RN s Hs) as [R3 R4].
      destruct (slope (pV U) (pdV U) m M L1) with (x := T_phi te y s) (z := T_phi te z s) as (v & Bv & Ev); [intros; apply SM; assumption|exact B1|exact R1|exact R2|].
      destruct (slope (pdV U) (pd2V U) m M L2) with (x := T_phi te y s) (z := T_phi te z s) as (v' & Bv' & Ev'); [intros; apply SM; assumption|exact B2|exact R1|exact R2|].
      destruct (slope (fun x => exp (-2 * x)) (fun x => -2 * exp (-2 * x)) n0 n1 L3) with (x := T_N te y s) (z := T_N te z s) as (w & Bw & Ew); [intros; apply DE|exact B3|exact R3|exact R4|].
      fold x in Ev, Ev'. fold n in Ew.
      destruct (T_pos K U te y a b By s (IN s Hs)) as [HP1 HE1]. destruct (T_pos K U te z a b Bz s (IN s Hs)) as [HP2 HE2].
      pose proof (Bh s Hs) as Hh. rewrite Rabs_right in Hh by lra.
      set (g := T_Hub K U te y s + T_Hub K U te z s). assert (GP : h <= Rabs g) by (unfold g; rewrite Rabs_right; lra). assert (G0 : g <> 0) by (unfold g; lra).
      assert (EH : T_Hub K U te y s - T_Hub K U te z s = v / 3 / g * x + (T_dphi te y s + T_dphi te z s) / 6 / g * p + (- (K * w / g)) * n).
      { apply Rmult_eq_reg_r with g; [|exact G0]. replace ((T_Hub K U te y s - T_Hub K U te z s) * g) with (T_Hub K U te y s * T_Hub K U te y s - T_Hub K U te z s * T_Hub K U te z s) by (unfold g; ring).
        rewrite HE1, HE2. unfold T_get_H2.
        replace ((T_dphi te y s ^ 2 / 2 + pV U (T_phi te y s)) / 3 - K * exp (-2 * T_N te y s) - ((T_dphi te z s ^ 2 / 2 + pV U (T_phi te z s)) / 3 - K * exp (-2 * T_N te z s)))
          with ((pV U (T_phi te y s) - pV U (T_phi te z s)) / 3 + (T_dphi te y s + T_dphi te z s) / 6 * p - K * (exp (-2 * T_N te y s) - exp (-2 * T_N te z s))) by (unfold p; field).
        cbv beta in Ew. rewrite Ev, Ew. field. exact G0. }
      assert (b1 : bd (v / 3 / g) A1). { apply bd_div; [|exact hp|exact GP]. apply bd_mult; [exact Bv|]. unfold bd. rewrite Rabs_right; lra. }
      assert (b2 : bd ((T_dphi te y s + T_dphi te z s) / 6 / g) A2).
      { apply bd_div; [|exact hp|exact GP]. apply bd_mult; [apply bd_plus; [exact (BP1 s Hs)|exact (BP2 s Hs)]|]. unfold bd. rewrite Rabs_right; lra. }
      assert (b3 : bd (- (K * w / g)) A3). { apply bd_opp, bd_div; [|exact hp|exact GP]. apply bd_mult; [apply bd_refl|exact Bw]. }
      split; [|split].
      + unfold p. fold p. pose proof (Rabs_pos x). pose proof (Rabs_pos n). apply Rle_trans with (1 * (Rabs x + Rabs p + Rabs n)); [lra|].
        apply Rmult_le_compat_r; [exact NN|]. unfold C, S1, S2. lra.
      + rewrite !T_d2phi_eq.
        replace (-3 * T_Hub K U te y s * T_dphi te y s - pdV U (T_phi te y s) - (-3 * T_Hub K U te z s * T_dphi te z s - pdV U (T_phi te z s)))
          with ((- (3 * T_dphi te z s * (v / 3 / g)) - v') * x + (- (3 * T_Hub K U te y s) - 3 * T_dphi te z s * ((T_dphi te y s + T_dphi te z s) / 6 / g)) * p + (- (3 * T_dphi te z s * (- (K * w / g)))) * n).
        * assert (B3' : bd 3 3) by (unfold bd; rewrite Rabs_right; lra).
          apply Rle_trans with (S2 * (Rabs x + Rabs p + Rabs n)); [|apply Rmult_le_compat_r; [exact NN|unfold C, S1, S2; lra]].
          unfold S2. apply bd_lin3.
          -- apply bd_minus; [apply bd_opp, bd_mult; [apply bd_mult; [exact B3'|exact (BP2 s Hs)]|exact b1]|exact Bv'].
          -- apply bd_minus; [apply bd_opp, bd_mult; [exact B3'|exact (BQ s Hs)]|apply bd_mult; [apply bd_mult; [exact B3'|exact (BP2 s Hs)]|exact b2]].
          -- apply bd_opp, bd_mult; [apply bd_mult; [exact B3'|exact (BP2 s Hs)]|exact b3].
        * replace (-3 * T_Hub K U te y s * T_dphi te y s - pdV U (T_phi te y s) - (-3 * T_Hub K U te z s * T_dphi te z s - pdV U (T_phi te z s)))
            with (-3 * T_Hub K U te y s * p - 3 * T_dphi te z s * (T_Hub K U te y s - T_Hub K U te z s) - (pdV U (T_phi te y s) - pdV U (T_phi te z s))) by (unfold p; ring).
          rewrite EH, Ev'. ring.
      + rewrite EH. apply Rle_trans with (S1 * (Rabs x + Rabs p + Rabs n)); [unfold S1; apply bd_lin3; assumption|].
        apply Rmult_le_compat_r; [exact NN|unfold C, S1, S2; lra]. }
  intros t Ht. specialize (DD t Ht). rewrite E1, E2, E3 in DD.
  assert (Z0 : ((T_phi te z t0 - T_phi te z t0) ^ 2 + (T_dphi te z t0 - T_dphi te z t0) ^ 2 + (T_N te z t0 - T_N te z t0) ^ 2) * exp (6 * C * Rabs (t - t0)) = 0) by ring.
  rewrite Z0 in DD.
  pose proof (pow2_ge_0 (T_phi te y t - T_phi te z t)). pose proof (pow2_ge_0 (T_dphi te y t - T_dphi te z t)). pose proof (pow2_ge_0 (T_N te y t - T_N te z t)).
  assert (S0 : forall r, r ^ 2 = 0 -> r = 0) by (intros r Hr; apply Rsqr_0_uniq; rewrite Rsqr_pow2; exact Hr).
  repeat split; apply Rminus_diag_uniq, S0; lra.
Qed.
End Time.

Section Efolds.
Variables (K : R) (U : potfun) (tt te : bool) (a b : R).
Definition W_of y s := 2 * pV U (N_phi tt te y s) - 6 * K * exp (-2 * s).
Definition G_of y s := (6 - N_dphi tt te y s ^ 2) / W_of y s.
Lemma W_nonzero y s : N_background K U tt te y a b -> a < s < b -> W_of y s <> 0.
Proof.
  intros B Hs E. destruct (N_pos K U tt te y a b B s Hs) as (P & Q & _). unfold N_get_H2 in Q. fold (W_of y s) in Q. rewrite E in Q.
  assert (0 < N_Hub K U tt te y s * N_Hub K U tt te y s) by (apply Rmult_lt_0_compat; exact P). unfold Rdiv in Q. lra.
Qed.
Lemma G_inv y s : N_background K U tt te y a b -> a < s < b -> G_of y s = / (N_Hub K U tt te y s * N_Hub K U tt te y s).
Proof.
  intros B Hs. destruct (N_pos K U tt te y a b B s Hs) as (P & Q & N6). pose proof (W_nonzero y s B Hs) as W0.
  rewrite Q. unfold N_get_H2, G_of. fold (W_of y s). field. split; assumption.
Qed.
Lemma d2phi_G y s : N_background K U tt te y a b -> a < s < b ->
  N_d2phi K U tt te y s = N_dphi tt te y s ^ 3 / 2 - 3 * N_dphi tt te y s - (K * exp (-2 * s) * N_dphi tt te y s + pdV U (N_phi tt te y s)) * G_of y s.
Proof.
  intros B Hs. pose proof (G_inv y s B Hs) as EG. destruct (N_pos K U tt te y a b B s Hs) as (P & Q & N6).
  unfold N_d2phi, N_get_d2phi, N_get_dH_H. replace (N_H2 K U tt te s (y s)) with (N_Hub K U tt te y s * N_Hub K U tt te y s) by (exact Q).
  rewrite EG. field. lra.
Qed.
Variables (y z : R -> list R).
Hypothesis By : N_background K U tt te y a b.
Hypothesis Bz : N_background K U tt te z a b.
Lemma W_derive x s : N_background K U tt te x a b -> a < s < b -> is_derive (W_of x) s (2 * (pdV U (N_phi tt te x s) * N_dphi tt te x s) + 12 * K * exp (-2 * s)).
Proof.
  intros B Hs. destruct (N_comps K U tt te x a b B s Hs) as (D1 & _). destruct (N_smooth K U tt te x a b B s Hs) as (S1 & _).
  unfold W_of. pose proof (is_derive_comp (pV U) (N_phi tt te x) s _ _ S1 D1) as DC.
  assert (DE : is_derive (fun s => 6 * K * exp (-2 * s)) s (- (12 * K * exp (-2 * s)))) by (auto_derive; [exact I|ring]).
  eapply is_derive_eq; [apply is_derive_sub; [apply (is_derive_scal _ _ 2 _ DC)|exact DE]|]. toR. unfold scal; simpl; unfold mult; simpl. ring.
Qed.
Lemma N_core c d t0 : a < c -> d < b -> c <= t0 <= d ->
  N_phi tt te y t0 = N_phi tt te z t0 -> N_dphi tt te y t0 = N_dphi tt te z t0 ->
  forall t, c <= t <= d -> N_phi tt te y t = N_phi tt te z t /\ N_dphi tt te y t = N_dphi tt te z t.
Proof.
  intros Hc Hd Ht0 E1 E2. assert (L : c <= d) by lra.
  assert (IN : forall s, c <= s <= d -> a < s < b) by (intros; lra).
  assert (Dy := fun s Hs => N_comps K U tt te y a b By s (IN s Hs)). assert (Dz := fun s Hs => N_comps K U tt te z a b Bz s (IN s Hs)).
  assert (C1 : cont_in (N_phi tt te y) c d) by (apply (deriv_cont _ (N_dphi tt te y)); intros s Hs; apply (Dy s Hs)).
  assert (C2 : cont_in (N_phi tt te z) c d) by (apply (deriv_cont _ (N_dphi tt te z)); intros s Hs; apply (Dz s Hs)).
  destruct (range _ _ c d t0 Ht0 C1 C2 E1) as (m & M & LM & RG & FILL).
  assert (SM : forall x, m <= x <= M -> smooth_pot U x).
  { intros x Hx. destruct (FILL x Hx) as (s & Hs & [<-|<-]); [exact (N_smooth K U tt te y a b By s (IN s Hs))|exact (N_smooth K U tt te z a b Bz s (IN s Hs))]. }
  destruct (bounded (pdV U) m M LM) as (L1 & L1p & B1); [apply (deriv_cont _ (pd2V U)); intros s Hs; apply (SM s Hs)|].
  destruct (bounded (pd2V U) m M LM) as (L2 & L2p & B2); [apply (deriv_cont _ (pd3V U)); intros s Hs; apply (SM s Hs)|].
  destruct (bounded (fun x => K * exp (-2 * x)) c d L) as (E & Ep & BE).
  { apply (deriv_cont _ (fun x => -2 * K * exp (-2 * x))). intros s _. auto_derive; [exact I|ring]. }
  destruct (bounded (N_dphi tt te y) c d L) as (P1 & P1p & BP1); [apply (deriv_cont _ (N_d2phi K U tt te y)); intros s Hs; apply (Dy s Hs)|].
  destruct (bounded (N_dphi tt te z) c d L) as (P2 & P2p & BP2); [apply (deriv_cont _ (N_d2phi K U tt te z)); intros s Hs; apply (Dz s Hs)|].
  destruct (bounded_below (W_of y) c d L) as (w & wp & Bw).
  { eapply deriv_cont. intros s Hs. exact (W_derive y s By (IN s Hs)). }
  { intros s Hs. exact (W_nonzero y s By (IN s Hs)). }
  destruct (bounded_below (W_of z) c d L) as (u & up & Bu).
  { eapply deriv_cont. intros s Hs. exact (W_derive z s Bz (IN s Hs)). }
  { intros s Hs. exact (W_nonzero z s Bz (IN s Hs)). }
  assert (B6 : bd 6 6) by (unfold bd; rewrite Rabs_right; lra). assert (B3' : bd 3 3) by (unfold bd; rewrite Rabs_right; lra). assert (B2' : bd 2 2) by (unfold bd; rewrite Rabs_right; lra).
  assert (BG1 : forall s, c <= s <= d -> bd (G_of y s) ((6 + P1 * P1) * / w)).
  { intros s Hs. apply bd_div; [|exact wp|exact (Bw s Hs)]. apply bd_minus; [exact B6|]. replace (N_dphi tt te y s ^ 2) with (N_dphi tt te y s * N_dphi tt te y s) by ring. apply bd_mult; exact (BP1 s Hs). }
  assert (BG2 : forall s, c <= s <= d -> bd (G_of z s) ((6 + P2 * P2) * / u)).
  { intros s Hs. apply bd_div; [|exact up|exact (Bu s Hs)]. apply bd_minus; [exact B6|]. replace (N_dphi tt te z s ^ 2) with (N_dphi tt te z s * N_dphi tt te z s) by ring. apply bd_mult; exact (BP2 s Hs). }
  set (Q1 := (6 + P1 * P1) * / w) in *. set (Q2 := (6 + P2 * P2) * / u) in *.
  set (A1 := (E * P2 + L1) * (2 * L1 * Q2 * / w) + Q2 * L2).
  set (A2 := (P1 * P1 + P1 * P2 + P2 * P2) * / 2 + 3 + E * Q1 + (E * P2 + L1) * ((P1 + P2) * / w)).
  set (C := 1 + Rabs A1 + Rabs A2).
  assert (CP : 0 <= C) by (unfold C; pose proof (Rabs_pos A1); pose proof (Rabs_pos A2); lra).
  assert (DD : forall t, c <= t <= d ->
    (N_phi tt te y t - N_phi tt te z t)^2 + (N_dphi tt te y t - N_dphi tt te z t)^2 + 0^2 <=
    ((N_phi tt te y t0 - N_phi tt te z t0)^2 + (N_dphi tt te y t0 - N_dphi tt te z t0)^2 + 0^2) * exp (6 * C * Rabs (t - t0))).
  { apply (stays_zero3 (fun s => N_phi tt te y s - N_phi tt te z s) (fun s => N_dphi tt te y s - N_dphi tt te z s) (fun _ => 0)
      (fun s => N_dphi tt te y s - N_dphi tt te z s) (fun s => N_d2phi K U tt te y s - N_d2phi K U tt te z s) (fun _ => 0) c d C t0 Ht0); [|exact CP|].
    - intros s Hs. destruct (Dy s Hs) as (X1 & X2 & _). destruct (Dz s Hs) as (Y1 & Y2 & _).
      split; [apply is_derive_sub; assumption|]. split; [apply is_derive_sub; assumption|exact (@is_derive_const R_AbsRing R_NormedModule 0 s)].
    - intros s Hs. cbn zeta. set (x := N_phi tt te y s - N_phi tt te z s). set (p := N_dphi tt te y s - N_dphi tt te z s).
      rewrite Rabs_R0.
      assert (NN : 0 <= Rabs x + Rabs p + 0) by (pose proof (Rabs_pos x); pose proof (Rabs_pos p); lra).
      destruct (RG s Hs) as [R1 R2].
      destruct (slope (pV U) (pdV U) m M L1) with (x := N_phi tt te y s) (z := N_phi tt te z s) as (v & Bv & Ev); [intros; apply SM; assumption|exact B1|exact R1|exact R2|].
      destruct (slope (pdV U) (pd2V U) m M L2) with (x := N_phi tt te y s) (z := N_phi tt te z s) as (v' & Bv' & Ev'); [intros; apply SM; assumption|exact B2|exact R1|exact R2|].
      fold x in Ev, Ev'.
      assert (W1 := W_nonzero y s By (IN s Hs)). assert (W2 := W_nonzero z s Bz (IN s Hs)).
      set (p1 := N_dphi tt te y s) in *. set (p2 := N_dphi tt te z s) in *. set (ke := K * exp (-2 * s)). set (D1 := pdV U (N_phi tt te y s)) in *.
      assert (EW : W_of y s - W_of z s = 2 * v * x) by (replace (2 * v * x) with (2 * (v * x)) by ring; rewrite <- Ev; unfold W_of; ring).
      assert (EG : G_of y s - G_of z s = - (2 * v * G_of z s / W_of y s) * x + - ((p1 + p2) / W_of y s) * p).
      { apply Rmult_eq_reg_r with (W_of y s); [|exact W1].
        replace ((- (2 * v * G_of z s / W_of y s) * x + - ((p1 + p2) / W_of y s) * p) * W_of y s) with (- (2 * v * x) * G_of z s - (p1 + p2) * p) by (field; exact W1).
        rewrite <- EW. unfold G_of. fold p1 p2. unfold p. field. split; assumption. }
      split; [|split].
      + fold p. pose proof (Rabs_pos x). apply Rle_trans with (1 * (Rabs x + Rabs p + 0)); [lra|].
        apply Rmult_le_compat_r; [exact NN|]. unfold C. pose proof (Rabs_pos A1). pose proof (Rabs_pos A2). lra.
      + rewrite (d2phi_G y s By (IN s Hs)), (d2phi_G z s Bz (IN s Hs)). fold p1 p2 ke D1.
        replace (p1 ^ 3 / 2 - 3 * p1 - (ke * p1 + D1) * G_of y s - (p2 ^ 3 / 2 - 3 * p2 - (ke * p2 + pdV U (N_phi tt te z s)) * G_of z s))
          with (((ke * p2 + D1) * (2 * v * G_of z s / W_of y s) - G_of z s * v') * x + ((p1 * p1 + p1 * p2 + p2 * p2) / 2 - 3 - ke * G_of y s + (ke * p2 + D1) * ((p1 + p2) / W_of y s)) * p + 0 * 0).
        * apply Rle_trans with ((A1 + A2 + 0) * (Rabs x + Rabs p + 0));
            [|apply Rmult_le_compat_r; [exact NN|unfold C; pose proof (Rle_abs A1); pose proof (Rle_abs A2); lra]].
          pose proof (BP1 s Hs) as b1. pose proof (BP2 s Hs) as b2. pose proof (BE s Hs) as be. fold p1 in b1. fold p2 in b2. cbv beta in be. fold ke in be.
          assert (bD : bd D1 L1) by (apply B1; exact R1).
          replace (Rabs x + Rabs p + 0) with (Rabs x + Rabs p + Rabs 0) by (rewrite Rabs_R0; reflexivity).
          assert (bA : bd (ke * p2 + D1) (E * P2 + L1)) by (apply bd_plus; [apply bd_mult; assumption|exact bD]).
          apply bd_lin3.
          -- apply bd_minus; [|apply bd_mult; [exact (BG2 s Hs)|exact Bv'] ]. apply bd_mult; [exact bA|]. apply bd_div; [|exact wp|exact (Bw s Hs)].
             apply bd_mult; [apply bd_mult; assumption|exact (BG2 s Hs)].
          -- apply bd_plus; [|apply bd_mult; [exact bA|]; apply bd_div; [apply bd_plus; assumption|exact wp|exact (Bw s Hs)] ].
             apply bd_minus; [|apply bd_mult; [exact be|exact (BG1 s Hs)] ]. apply bd_minus; [|exact B3'].
             apply bd_mult; [|unfold bd; rewrite Rabs_right; lra]. apply bd_plus; [apply bd_plus|]; apply bd_mult; assumption.
          -- unfold bd. rewrite Rabs_R0. lra.
        * replace (p1 ^ 3 / 2 - 3 * p1 - (ke * p1 + D1) * G_of y s - (p2 ^ 3 / 2 - 3 * p2 - (ke * p2 + pdV U (N_phi tt te z s)) * G_of z s))
            with ((p1 * p1 + p1 * p2 + p2 * p2) / 2 * p - 3 * p - ke * G_of y s * p - (ke * p2 + D1) * (G_of y s - G_of z s) - G_of z s * (D1 - pdV U (N_phi tt te z s))) by (unfold p; field).
          rewrite EG, Ev'. field. exact W1.
      + apply Rmult_le_pos; assumption. }
  intros t Ht. specialize (DD t Ht). rewrite E1, E2 in DD.
  assert (Z0 : ((N_phi tt te z t0 - N_phi tt te z t0) ^ 2 + (N_dphi tt te z t0 - N_dphi tt te z t0) ^ 2 + 0 ^ 2) * exp (6 * C * Rabs (t - t0)) = 0) by ring.
  rewrite Z0 in DD.
  pose proof (pow2_ge_0 (N_phi tt te y t - N_phi tt te z t)). pose proof (pow2_ge_0 (N_dphi tt te y t - N_dphi tt te z t)).
  assert (S0 : forall r, r ^ 2 = 0 -> r = 0) by (intros r Hr; apply Rsqr_0_uniq; rewrite Rsqr_pow2; exact Hr).
  replace (0 ^ 2) with 0 in DD by ring.
  split; apply Rminus_diag_uniq, S0; lra.
Qed.
End Efolds.

Lemma T_restrict K U te y a b c d : T_background K U te y a b -> a <= c -> d <= b -> T_background K U te y c d.
Proof. intros [S Q] H1 H2. split; intros x Hx; [apply S; lra|apply Q; lra]. Qed.
Lemma N_restrict K U tt te y a b c d : N_background K U tt te y a b -> a <= c -> d <= b -> N_background K U tt te y c d.
Proof. intros [S Q] H1 H2. split; intros x Hx; [apply S; lra|apply Q; lra]. Qed.
Lemma between t0 t : Rmin t0 t <= t0 <= Rmax t0 t /\ Rmin t0 t <= t <= Rmax t0 t.
Proof. unfold Rmin, Rmax. destruct (Rle_dec t0 t); lra. Qed.
Lemma T_list (te : bool) y z t : List.length (y t) = List.length (T_idx te) -> List.length (z t) = List.length (T_idx te) ->
  T_phi te y t = T_phi te z t -> T_dphi te y t = T_dphi te z t -> T_N te y t = T_N te z t -> (te = true -> T_eta te y t = T_eta te z t) -> y t = z t.
Proof.
  unfold T_phi, T_dphi, T_N, T_eta. destruct te; cbn; destruct (y t) as [|y0 [|y1 [|y2 [|y3 [|]]]]]; try discriminate; destruct (z t) as [|z0 [|z1 [|z2 [|z3 [|]]]]]; try discriminate;
  cbn; intros _ _ -> -> -> E; [rewrite (E eq_refl)|]; reflexivity.
Qed.
Lemma N_list (tt te : bool) y z t : List.length (y t) = List.length (N_idx tt te) -> List.length (z t) = List.length (N_idx tt te) ->
  N_phi tt te y t = N_phi tt te z t -> N_dphi tt te y t = N_dphi tt te z t -> (tt = true -> N_t tt te y t = N_t tt te z t) -> (te = true -> N_eta tt te y t = N_eta tt te z t) -> y t = z t.
Proof.
  unfold N_phi, N_dphi, N_t, N_eta. destruct tt, te; cbn; destruct (y t) as [|y0 [|y1 [|y2 [|y3 [|]]]]]; try discriminate; destruct (z t) as [|z0 [|z1 [|z2 [|z3 [|]]]]]; try discriminate;
  cbn; intros _ _ -> -> E1 E2; try rewrite (E1 eq_refl); try rewrite (E2 eq_refl); reflexivity.
Qed.

(** two runs of the cosmic-time equations that agree at one moment agree, in every component,
    at every moment both cover *)
Theorem C110_time : forall K U te y z a b a' b' t0, T_background K U te y a b -> T_background K U te z a' b' ->
  a < t0 < b -> a' < t0 < b' -> y t0 = z t0 ->
  forall t, a < t < b -> a' < t < b' -> y t = z t.
Proof.
  intros K U te y z a b a' b' t0 By Bz A1 A2 E t H1 H2.
  set (c := Rmin t0 t). set (d := Rmax t0 t). destruct (between t0 t) as [I0 I1]. fold c d in I0, I1.
  assert (IN : (Rmax a a' < c /\ d < Rmin b b')) by (unfold c, d, Rmin, Rmax; repeat destruct (Rle_dec _ _); lra).
  assert (By' := T_restrict K U te y a b (Rmax a a') (Rmin b b') By (Rmax_l _ _) (Rmin_l _ _)).
  assert (Bz' := T_restrict K U te z a' b' (Rmax a a') (Rmin b b') Bz (Rmax_r _ _) (Rmin_r _ _)).
  destruct IN as [Hc Hd].
  assert (CORE := T_core K U te y z _ _ By' Bz' c d t0 Hc Hd I0).
  assert (Q1 : T_phi te y t0 = T_phi te z t0) by (unfold T_phi; rewrite E; reflexivity). assert (Q2 : T_dphi te y t0 = T_dphi te z t0) by (unfold T_dphi; rewrite E; reflexivity).
  assert (Q3 : T_N te y t0 = T_N te z t0) by (unfold T_N; rewrite E; reflexivity). specialize (CORE Q1 Q2 Q3).
  destruct (CORE t I1) as (X1 & X2 & X3).
  apply (T_list te); [apply (proj1 By t H1)|apply (proj1 Bz t H2)|exact X1|exact X2|exact X3|].
  intros T. apply Rminus_diag_uniq.
  rewrite (const_zero (fun s => T_eta te y s - T_eta te z s) c d t0 I0); [unfold T_eta; rewrite E; ring| |exact I1].
  intros s Hs. destruct (T_comps K U te y _ _ By' s ltac:(lra)) as (_ & _ & _ & Y). destruct (T_comps K U te z _ _ Bz' s ltac:(lra)) as (_ & _ & _ & Z).
  apply is_derive_eq with (1 := is_derive_sub _ _ _ _ _ (Y T) (Z T)). destruct (CORE s Hs) as (_ & _ & EN). rewrite EN. toR. ring.
Qed.
(** ... and the same in e-folds *)
Theorem C110_efolds : forall K U tt te y z a b a' b' n0, N_background K U tt te y a b -> N_background K U tt te z a' b' ->
  a < n0 < b -> a' < n0 < b' -> y n0 = z n0 ->
  forall n, a < n < b -> a' < n < b' -> y n = z n.
Proof.
  intros K U tt te y z a b a' b' t0 By Bz A1 A2 E t H1 H2.
  set (c := Rmin t0 t). set (d := Rmax t0 t). destruct (between t0 t) as [I0 I1]. fold c d in I0, I1.
  assert (IN : (Rmax a a' < c /\ d < Rmin b b')) by (unfold c, d, Rmin, Rmax; repeat destruct (Rle_dec _ _); lra).
  assert (By' := N_restrict K U tt te y a b (Rmax a a') (Rmin b b') By (Rmax_l _ _) (Rmin_l _ _)).
  assert (Bz' := N_restrict K U tt te z a' b' (Rmax a a') (Rmin b b') Bz (Rmax_r _ _) (Rmin_r _ _)).
  destruct IN as [Hc Hd].
  assert (CORE := N_core K U tt te _ _ y z By' Bz' c d t0 Hc Hd I0).
  assert (Q1 : N_phi tt te y t0 = N_phi tt te z t0) by (unfold N_phi; rewrite E; reflexivity). assert (Q2 : N_dphi tt te y t0 = N_dphi tt te z t0) by (unfold N_dphi; rewrite E; reflexivity).
  specialize (CORE Q1 Q2).
  destruct (CORE t I1) as (X1 & X2).
  assert (EH : forall s, c <= s <= d -> N_Hub K U tt te y s = N_Hub K U tt te z s).
  { intros s Hs. destruct (CORE s Hs) as (Y1 & Y2). change (sqrt (N_get_H2 s (N_dphi tt te y s) (pV U (N_phi tt te y s)) K) = sqrt (N_get_H2 s (N_dphi tt te z s) (pV U (N_phi tt te z s)) K)).
    rewrite Y1, Y2. reflexivity. }
  apply (N_list tt te); [apply (proj1 By t H1)|apply (proj1 Bz t H2)|exact X1|exact X2| |]; intros T; apply Rminus_diag_uniq.
  - rewrite (const_zero (fun s => N_t tt te y s - N_t tt te z s) c d t0 I0); [unfold N_t; rewrite E; ring| |exact I1].
    intros s Hs. destruct (N_comps K U tt te y _ _ By' s ltac:(lra)) as (_ & _ & Y & _). destruct (N_comps K U tt te z _ _ Bz' s ltac:(lra)) as (_ & _ & Z & _).
    apply is_derive_eq with (1 := is_derive_sub _ _ _ _ _ (Y T) (Z T)). rewrite (EH s Hs). toR. ring.
  - rewrite (const_zero (fun s => N_eta tt te y s - N_eta tt te z s) c d t0 I0); [unfold N_eta; rewrite E; ring| |exact I1].
    intros s Hs. destruct (N_comps K U tt te y _ _ By' s ltac:(lra)) as (_ & _ & _ & Y). destruct (N_comps K U tt te z _ _ Bz' s ltac:(lra)) as (_ & _ & _ & Z).
    apply is_derive_eq with (1 := is_derive_sub _ _ _ _ _ (Y T) (Z T)). rewrite (EH s Hs). toR. ring.
Qed.

(** the cosmic-time equations do not know what time it is: equal states at different times are
    followed by equal states ever after (and were preceded by equal states) *)
Lemma T_shift K U te y a b h : T_background K U te y a b -> T_background K U te (fun t => y (t + h)) (a - h) (b - h).
Proof.
  intros [S Q]. split.
  - intros x Hx. destruct (S (x + h) ltac:(lra)) as [L D]. split; [exact L|]. intros i Hi. specialize (D i Hi).
    assert (DX : is_derive (fun s => s + h) x 1) by (auto_derive; [exact I|ring]).
    apply is_derive_eq with (1 := is_derive_comp (fun s => nth i (y s) 0) (fun s => s + h) x _ _ D DX).
    change (T_call K U te x (y (x + h))) with (T_call K U te (x + h) (y (x + h))). unfold scal; simpl; unfold mult; simpl. ring.
  - intros t Ht. exact (Q (t + h) ltac:(lra)).
Qed.
Theorem C110_time_origin : forall K U te y z a b a' b' t1 t2, T_background K U te y a b -> T_background K U te z a' b' ->
  a < t1 < b -> a' < t2 < b' -> y t1 = z t2 ->
  forall s, a < t1 + s < b -> a' < t2 + s < b' -> y (t1 + s) = z (t2 + s).
Proof.
  intros K U te y z a b a' b' t1 t2 By Bz A1 A2 E s H1 H2.
  pose proof (C110_time K U te (fun t => y (t + t1)) (fun t => z (t + t2)) _ _ _ _ 0 (T_shift K U te y a b t1 By) (T_shift K U te z a' b' t2 Bz) ltac:(lra) ltac:(lra)) as X.
  cbv beta in X. rewrite !Rplus_0_l in X. rewrite (Rplus_comm t1), (Rplus_comm t2). apply X; [exact E|lra|lra].
Qed.

(** the options track_time and track_eta do not influence the field: runs with different options
    that agree on (phi, dphi/dN) at one moment agree on them at all, while the tracked clocks of
    two runs differ by constants *)
Lemma N_proj K U tt te y a b : N_background K U tt te y a b -> N_background K U false false (fun s => [N_phi tt te y s; N_dphi tt te y s]) a b.
Proof.
  intros B. split.
  - intros x Hx. split; [reflexivity|]. destruct (N_comps K U tt te y a b B x Hx) as (D1 & D2 & _).
    intros i Hi. destruct i as [|[|i]]; [exact D1|exact D2|cbn in Hi; lia].
  - intros n Hn. destruct (proj2 B n Hn) as (P & Q & S). split; [exact P|split; [exact Q|exact S]].
Qed.
Theorem C110_options : forall K U tt te tt' te' y z a b a' b' n0, N_background K U tt te y a b -> N_background K U tt' te' z a' b' ->
  a < n0 < b -> a' < n0 < b' -> N_phi tt te y n0 = N_phi tt' te' z n0 -> N_dphi tt te y n0 = N_dphi tt' te' z n0 ->
  forall n, a < n < b -> a' < n < b' ->
    N_phi tt te y n = N_phi tt' te' z n /\ N_dphi tt te y n = N_dphi tt' te' z n /\ N_Hub K U tt te y n = N_Hub K U tt' te' z n /\
    (tt = true -> tt' = true -> N_t tt te y n - N_t tt' te' z n = N_t tt te y n0 - N_t tt' te' z n0) /\
    (te = true -> te' = true -> N_eta tt te y n - N_eta tt' te' z n = N_eta tt te y n0 - N_eta tt' te' z n0).
Proof.
  intros K U tt te tt' te' y z a b a' b' n0 By Bz A1 A2 E1 E2.
  assert (F : forall n, a < n < b -> a' < n < b' -> N_phi tt te y n = N_phi tt' te' z n /\ N_dphi tt te y n = N_dphi tt' te' z n).
  { intros n H1 H2.
    pose proof (C110_efolds K U false false _ _ a b a' b' n0 (N_proj K U tt te y a b By) (N_proj K U tt' te' z a' b' Bz) A1 A2) as X. cbv beta in X. rewrite E1, E2 in X.
    specialize (X eq_refl n H1 H2). injection X as X1 X2. split; assumption. }
  assert (FH : forall n, a < n < b -> a' < n < b' -> N_Hub K U tt te y n = N_Hub K U tt' te' z n).
  { intros s H1 H2. destruct (F s H1 H2) as (Y1 & Y2). change (sqrt (N_get_H2 s (N_dphi tt te y s) (pV U (N_phi tt te y s)) K) = sqrt (N_get_H2 s (N_dphi tt' te' z s) (pV U (N_phi tt' te' z s)) K)).
    rewrite Y1, Y2. reflexivity. }
  intros n H1 H2. destruct (F n H1 H2) as [X1 X2]. split; [exact X1|]. split; [exact X2|]. split; [exact (FH n H1 H2)|].
  set (c := Rmin n0 n). set (d := Rmax n0 n). destruct (between n0 n) as [I0 I1]. fold c d in I0, I1.
  assert (IN : forall s, c <= s <= d -> a < s < b /\ a' < s < b') by (intros s; unfold c, d, Rmin, Rmax; destruct (Rle_dec n0 n); lra).
  split; intros T T'.
  - apply (const_zero (fun s => N_t tt te y s - N_t tt' te' z s) c d n0 I0); [|exact I1].
    intros s Hs. destruct (IN s Hs) as [S1 S2]. destruct (N_comps K U tt te y _ _ By s S1) as (_ & _ & Y & _). destruct (N_comps K U tt' te' z _ _ Bz s S2) as (_ & _ & Z & _).
    apply is_derive_eq with (1 := is_derive_sub _ _ _ _ _ (Y T) (Z T')). rewrite (FH s S1 S2). toR. ring.
  - apply (const_zero (fun s => N_eta tt te y s - N_eta tt' te' z s) c d n0 I0); [|exact I1].
    intros s Hs. destruct (IN s Hs) as [S1 S2]. destruct (N_comps K U tt te y _ _ By s S1) as (_ & _ & _ & Y). destruct (N_comps K U tt' te' z _ _ Bz s S2) as (_ & _ & _ & Z).
    apply is_derive_eq with (1 := is_derive_sub _ _ _ _ _ (Y T) (Z T')). rewrite (FH s S1 S2). toR. ring.
Qed.

(** a cosmic-time run and an e-fold run that describe the same universe at one moment do so at
    every moment both cover: the e-fold state at N(t) is the cosmic-time state at t *)
Lemma N_increasing K U te y a b s t : T_background K U te y a b -> a < s -> s < t -> t < b -> T_N te y s < T_N te y t.
Proof.
  intros B Ha L Hb. destruct (MVT_gen (T_N te y) s t (T_Hub K U te y)) as (c & C1 & C2).
  - intros x Hx. rewrite Rmin_left, Rmax_right in Hx by lra. apply (T_comps K U te y a b B x). lra.
  - intros x Hx. rewrite Rmin_left, Rmax_right in Hx by lra. apply continuity_pt_filterlim. apply (ex_derive_continuous (T_N te y)). exists (T_Hub K U te y x). apply (T_comps K U te y a b B x). lra.
  - rewrite Rmin_left, Rmax_right in C1 by lra. destruct (T_pos K U te y a b B c ltac:(lra)) as [P _].
    assert (0 < T_Hub K U te y c * (t - s)) by (apply Rmult_lt_0_compat; lra). lra.
Qed.
Theorem C110_both : forall K U tt te y z a b c d t0, T_background K U te y a b ->
  (forall t, a < t < b -> pV U (T_phi te y t) <> 3 * K * exp (-2 * T_N te y t)) ->
  N_background K U tt te z c d -> a < t0 < b -> c < T_N te y t0 < d -> z (T_N te y t0) = state_T2N K U tt te t0 (y t0) ->
  forall t, a < t < b -> c < T_N te y t < d -> z (T_N te y t) = state_T2N K U tt te t (y t).
Proof.
  intros K U tt te y z a b c d t0 By HV Bz H0 I0 E t Ht It.
  set (l := (a + Rmin t0 t) / 2). set (u := (b + Rmax t0 t) / 2).
  assert (LU : a < l /\ l < t0 /\ l < t /\ t0 < u /\ t < u /\ u < b) by (unfold l, u, Rmin, Rmax; destruct (Rle_dec t0 t); lra).
  destruct LU as (L1 & L2 & L3 & L4 & L5 & L6).
  destruct (C17_time_to_efolds K U tt te y a b By HV l u L1 ltac:(lra) L6) as (tau & HT & BN).
  assert (INJ : forall r, l < r < u -> T_N te y l < T_N te y r < T_N te y u) by (intros r Hr; split; apply (N_increasing K U te y a b _ _ By); lra).
  assert (TAU : forall r, l < r < u -> tau (T_N te y r) = r).
  { intros r Hr. destruct (HT (T_N te y r) (INJ r Hr)) as [R1 R2]. destruct (Rtotal_order (tau (T_N te y r)) r) as [X|[X|X]]; [|exact X|].
    - pose proof (N_increasing K U te y a b (tau (T_N te y r)) r By ltac:(lra) X ltac:(lra)). lra.
    - pose proof (N_increasing K U te y a b r (tau (T_N te y r)) By ltac:(lra) X ltac:(lra)). lra. }
  pose proof (C110_efolds K U tt te z _ c d _ _ (T_N te y t0) Bz BN I0 (INJ t0 ltac:(lra))) as X. cbv beta in X.
  rewrite (TAU t0 ltac:(lra)) in X. specialize (X E (T_N te y t) It (INJ t ltac:(lra))). rewrite (TAU t ltac:(lra)) in X. exact X.
Qed.

(** the flat exponential-potential universe: whoever starts on it stays on it, in both time variables *)
Theorem C110_nonvacuous :
  (forall z a b t0, 1 < t0 < 3 -> a < t0 < b -> T_background 0 (Vexp 10) true z a b -> z t0 = [2 * ln t0; 2 / t0; 2 * ln t0; - / t0] ->
     forall t, 1 < t < 3 -> a < t < b -> z t = [2 * ln t; 2 / t; 2 * ln t; - / t]) /\
  T_background 0 (Vexp 10) true y_flat 1 3 /\
  (exists z c d, c < 2 * ln 2 < d /\ N_background 0 (Vexp 10) true true z c d /\ z (2 * ln 2) = state_T2N 0 (Vexp 10) true true 2 (y_flat 2)).
Proof.
  split; [|split; [exact flat_background|]].
  - intros z a b t0 H1 H2 B E t H3 H4. change ([2 * ln t; 2 / t; 2 * ln t; - / t]) with (y_flat t).
    exact (C110_time 0 (Vexp 10) true z y_flat a b 1 3 t0 B flat_background H2 H1 E t H4 H3).
  - destruct (C17_time_to_efolds 0 (Vexp 10) true true y_flat 1 3 flat_background flat_V_ok (3/2) (5/2) ltac:(lra) ltac:(lra) ltac:(lra)) as [tau [HT B]].
    assert (I2 : T_N true y_flat (3/2) < 2 * ln 2 < T_N true y_flat (5/2)).
    { change (2 * ln 2) with (T_N true y_flat 2). split; (apply (N_increasing 0 (Vexp 10) true y_flat 1 3); [exact flat_background|lra|lra|lra]). }
    eexists _, _, _. split; [exact I2|]. split; [exact B|]. cbv beta. destruct (HT _ I2) as [T1 T2].
    replace (tau (2 * ln 2)) with 2; [reflexivity|]. change (T_N true y_flat (tau (2 * ln 2)) = T_N true y_flat 2) in T2.
    destruct (Rtotal_order (tau (2 * ln 2)) 2) as [X|[X|X]]; [|symmetry; exact X|].
    + pose proof (N_increasing 0 (Vexp 10) true y_flat 1 3 (tau (2 * ln 2)) 2 flat_background ltac:(lra) X ltac:(lra)). lra.
    + pose proof (N_increasing 0 (Vexp 10) true y_flat 1 3 2 (tau (2 * ln 2)) flat_background ltac:(lra) X ltac:(lra)). lra.
Qed.
