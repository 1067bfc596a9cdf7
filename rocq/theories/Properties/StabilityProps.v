(** C117: nearby initial conditions give nearby evolutions. *)
From Coq Require Import Reals List String Lra Lia.
From Coquelicot Require Import Coquelicot.
From Verif Require Import Base Model.Potentials Model.Equations Model.Background Spec.BackgroundSpec Spec.StabilitySpec
  Proofs.BackgroundT Proofs.BackgroundN Proofs.Unique Proofs.Stability Proofs.BackgroundEx Properties.BackgroundProps Properties.UniqueProps.
Import ListNotations.
Open Scope R_scope.
Open Scope string_scope.

(** the band of width r around the values of a continuous function on [c,d] is an interval *)
Lemma band f c d r : c <= d -> cont_in f c d -> exists m M, m <= M /\ (forall s, c <= s <= d -> m <= f s <= M) /\
  forall x, m - r <= x <= M + r -> 0 <= r -> exists s, c <= s <= d /\ Rabs (x - f s) <= r.
Proof.
  intros L C. destruct (range f f c d c ltac:(lra) C C eq_refl) as (m & M & LM & RG & FILL). exists m, M.
  split; [exact LM|]. split; [intros s Hs; apply (RG s Hs)|]. intros x Hx Hr.
  destruct (Rle_dec x m) as [X|X].
  - destruct (FILL m ltac:(lra)) as (s & Hs & E). exists s. split; [exact Hs|]. assert (f s = m) as -> by (destruct E; assumption). rewrite Rabs_left1; lra.
  - destruct (Rle_dec M x) as [Y|Y].
    + destruct (FILL M ltac:(lra)) as (s & Hs & E). exists s. split; [exact Hs|]. assert (f s = M) as -> by (destruct E; assumption). rewrite Rabs_right; lra.
    + destruct (FILL x ltac:(lra)) as (s & Hs & E). exists s. split; [exact Hs|]. assert (f s = x) as -> by (destruct E; assumption). rewrite Rminus_diag_eq by reflexivity. rewrite Rabs_R0. exact Hr.
Qed.
Lemma near_in x z m M r : m <= x <= M -> Rabs (x - z) <= r -> m - r <= z <= M + r.
Proof. intros H B. apply Rabs_le_between in B. lra. Qed.

Section Time.
Variables (K : R) (U : potfun) (te : bool) (y : R -> list R) (a b : R).
Hypothesis By : T_background K U te y a b.
Lemma T_tube c d t0 r : a < c -> d < b -> c <= t0 <= d -> 0 <= r -> smooth_around U (T_phi te y) c d r ->
  exists C, 0 <= C /\ forall z a' b', T_background K U te z a' b' -> a' < c -> d < b' ->
    forall c1 d1, c <= c1 -> c1 <= t0 <= d1 -> d1 <= d -> (forall s, c1 <= s <= d1 -> T_gap te y z s <= r ^ 2) ->
    forall t, c1 <= t <= d1 -> T_gap te y z t <= T_gap te y z t0 * exp (6 * C * Rabs (t - t0)).
Proof.
  intros Hc Hd Ht0 Hr SA. assert (L : c <= d) by lra.
  assert (IN : forall s, c <= s <= d -> a < s < b) by (intros; lra).
  assert (Dy := fun s Hs => T_comps K U te y a b By s (IN s Hs)).
  assert (C1 : cont_in (T_phi te y) c d) by (apply (deriv_cont _ (T_dphi te y)); intros s Hs; apply (Dy s Hs)).
  assert (C3 : cont_in (T_N te y) c d) by (apply (deriv_cont _ (T_Hub K U te y)); intros s Hs; apply (Dy s Hs)).
  destruct (band _ c d r L C1) as (m' & M' & LM' & RG' & FILL).
  set (m := m' - r). set (M := M' + r). assert (LM : m <= M) by (unfold m, M; lra).
  assert (SM : forall x, m <= x <= M -> smooth_pot U x) by (intros x Hx; destruct (FILL x Hx Hr) as (s & Hs & B); exact (SA s x Hs B)).
  destruct (bounded (pdV U) m M LM) as (L1 & L1p & B1); [apply (deriv_cont _ (pd2V U)); intros s Hs; apply (SM s Hs)|].
  destruct (bounded (pd2V U) m M LM) as (L2 & L2p & B2); [apply (deriv_cont _ (pd3V U)); intros s Hs; apply (SM s Hs)|].
  destruct (band _ c d r L C3) as (n0' & n1' & LN' & RN' & _).
  set (n0 := n0' - r). set (n1 := n1' + r). assert (LN : n0 <= n1) by (unfold n0, n1; lra).
  assert (DE : forall x, is_derive (fun x => exp (-2 * x)) x (-2 * exp (-2 * x))) by (intros; auto_derive; [exact I|ring]).
  destruct (bounded (fun x => -2 * exp (-2 * x)) n0 n1 LN) as (L3 & L3p & B3).
  { apply (deriv_cont _ (fun x => 4 * exp (-2 * x))). intros s _. auto_derive; [exact I|ring]. }
  destruct (bounded (T_dphi te y) c d L) as (P1 & P1p & BP1); [apply (deriv_cont _ (T_d2phi K U te y)); intros s Hs; apply (Dy s Hs)|].
  set (P2 := P1 + r). assert (P2p : 0 <= P2) by (unfold P2; lra).
  assert (CH : cont_in (T_Hub K U te y) c d) by (apply (deriv_cont _ (T_dH K U te y)); intros s Hs; exact (T_H_derive K U te y a b By s (IN s Hs))).
  destruct (bounded _ c d L CH) as (Q & Qp & BQ).
  destruct (bounded_below _ c d L CH) as (h & hp & Bh).
  { intros s Hs. pose proof (proj1 (T_pos K U te y a b By s (IN s Hs))). lra. }
  set (A1 := L1 * / 3 * / h). set (A2 := (P1 + P2) * / 6 * / h). set (A3 := Rabs K * L3 * / h).
  assert (P0 : 0 <= A1 /\ 0 <= A2 /\ 0 <= A3).
  { assert (0 < / h) by (apply Rinv_0_lt_compat; exact hp). pose proof (Rabs_pos K). unfold A1, A2, A3. repeat split; repeat apply Rmult_le_pos; lra. }
  set (S1 := A1 + A2 + A3). set (S2 := (3 * P2 * A1 + L2) + (3 * Q + 3 * P2 * A2) + 3 * P2 * A3).
  assert (Q0 : 0 <= 3 * P2 * A1 /\ 0 <= 3 * P2 * A2 /\ 0 <= 3 * P2 * A3) by (destruct P0 as (U1 & U2 & U3); repeat split; (apply Rmult_le_pos; [lra|assumption])).
  set (C := 1 + S1 + S2). assert (CP : 0 <= C) by (unfold C, S1, S2; lra).
  exists C. split; [exact CP|]. intros z a' b' Bz Hc' Hd' c1 d1 K1 K2 K3 TUBE.
  assert (IN' : forall s, c <= s <= d -> a' < s < b') by (intros; lra).
  assert (Dz := fun s Hs => T_comps K U te z a' b' Bz s (IN' s Hs)).
  assert (COMP : forall s, c1 <= s <= d1 -> Rabs (T_phi te y s - T_phi te z s) <= r /\ Rabs (T_dphi te y s - T_dphi te z s) <= r /\ Rabs (T_N te y s - T_N te z s) <= r).
  { intros s Hs. pose proof (TUBE s Hs) as G. unfold T_gap in G.
    pose proof (pow2_ge_0 (T_phi te y s - T_phi te z s)). pose proof (pow2_ge_0 (T_dphi te y s - T_dphi te z s)). pose proof (pow2_ge_0 (T_N te y s - T_N te z s)).
    split; [|split]; (apply (sq_bd _ (r ^ 2)); [exact Hr|lra|lra]). }
  assert (RG : forall s, c1 <= s <= d1 -> m <= T_phi te y s <= M /\ m <= T_phi te z s <= M).
  { intros s Hs. destruct (COMP s Hs) as (X & _). pose proof (RG' s ltac:(lra)) as R0. split; [unfold m, M; lra|exact (near_in _ _ _ _ _ R0 X)]. }
  assert (RN : forall s, c1 <= s <= d1 -> n0 <= T_N te y s <= n1 /\ n0 <= T_N te z s <= n1).
  { intros s Hs. destruct (COMP s Hs) as (_ & _ & X). pose proof (RN' s ltac:(lra)) as R0. split; [unfold n0, n1; lra|exact (near_in _ _ _ _ _ R0 X)]. }
  assert (BP2 : forall s, c1 <= s <= d1 -> Rabs (T_dphi te z s) <= P2).
  { intros s Hs. destruct (COMP s Hs) as (_ & X & _). pose proof (BP1 s ltac:(lra)) as Y. unfold P2. apply Rabs_le_between in X. apply Rabs_le_between in Y. apply Rabs_le. lra. }
  unfold T_gap.
  apply (stays_zero3 (fun s => T_phi te y s - T_phi te z s) (fun s => T_dphi te y s - T_dphi te z s) (fun s => T_N te y s - T_N te z s)
      (fun s => T_dphi te y s - T_dphi te z s) (fun s => T_d2phi K U te y s - T_d2phi K U te z s) (fun s => T_Hub K U te y s - T_Hub K U te z s) c1 d1 C t0 K2); [|exact CP|].
    - intros s Hs'. assert (Hs : c <= s <= d) by lra. destruct (Dy s Hs) as (X1 & X2 & X3 & _). destruct (Dz s Hs) as (Y1 & Y2 & Y3 & _).
      split; [apply is_derive_sub; assumption|]. split; apply is_derive_sub; assumption.
    - intros s Hs'. assert (Hs : c <= s <= d) by lra. cbn zeta. set (x := T_phi te y s - T_phi te z s). set (p := T_dphi te y s - T_dphi te z s). set (n := T_N te y s - T_N te z s).
      assert (NN : 0 <= Rabs x + Rabs p + Rabs n) by (pose proof (Rabs_pos x); pose proof (Rabs_pos p); pose proof (Rabs_pos n); lra).
      destruct (RG s Hs') as [R1 R2]. destruct (RN s Hs') as [R3 R4].
      destruct (slope (pV U) (pdV U) m M L1) with (x := T_phi te y s) (z := T_phi te z s) as (v & Bv & Ev); [intros; apply SM; assumption|exact B1|exact R1|exact R2|].
      destruct (slope (pdV U) (pd2V U) m M L2) with (x := T_phi te y s) (z := T_phi te z s) as (v' & Bv' & Ev'); [intros; apply SM; assumption|exact B2|exact R1|exact R2|].
      destruct (slope (fun x => exp (-2 * x)) (fun x => -2 * exp (-2 * x)) n0 n1 L3) with (x := T_N te y s) (z := T_N te z s) as (w & Bw & Ew); [intros; apply DE|exact B3|exact R3|exact R4|].
      fold x in Ev, Ev'. fold n in Ew.
      destruct (T_pos K U te y a b By s (IN s Hs)) as [HP1 HE1]. destruct (T_pos K U te z a' b' Bz s (IN' s Hs)) as [HP2 HE2].
      pose proof (Bh s Hs) as Hh. rewrite Rabs_right in Hh by lra.
      set (g := T_Hub K U te y s + T_Hub K U te z s). assert (GP : h <= Rabs g) by (unfold g; rewrite Rabs_right; lra). assert (G0 : g <> 0) by (unfold g; lra).
      assert (EH : T_Hub K U te y s - T_Hub K U te z s = v / 3 / g * x + (T_dphi te y s + T_dphi te z s) / 6 / g * p + (- (K * w / g)) * n).
      { apply Rmult_eq_reg_r with g; [|exact G0]. replace ((T_Hub K U te y s - T_Hub K U te z s) * g) with (T_Hub K U te y s * T_Hub K U te y s - T_Hub K U te z s * T_Hub K U te z s) by (unfold g; ring).
        rewrite HE1, HE2. unfold T_get_H2.
        replace ((T_dphi te y s ^ 2 / 2 + pV U (T_phi te y s)) / 3 - K * exp (-2 * T_N te y s) - ((T_dphi te z s ^ 2 / 2 + pV U (T_phi te z s)) / 3 - K * exp (-2 * T_N te z s)))
          with ((pV U (T_phi te y s) - pV U (T_phi te z s)) / 3 + (T_dphi te y s + T_dphi te z s) / 6 * p - K * (exp (-2 * T_N te y s) - exp (-2 * T_N te z s))) by (unfold p; field).
        cbv beta in Ew. rewrite Ev, Ew. field. exact G0. }
      assert (b1 : bd (v / 3 / g) A1). { apply bd_div; [|exact hp|exact GP]. apply bd_mult; [exact Bv|]. unfold bd. rewrite Rabs_right; lra. }
      assert (b2 : bd ((T_dphi te y s + T_dphi te z s) / 6 / g) A2).
      { apply bd_div; [|exact hp|exact GP]. apply bd_mult; [apply bd_plus; [exact (BP1 s Hs)|exact (BP2 s Hs')]|]. unfold bd. rewrite Rabs_right; lra. }
      assert (b3 : bd (- (K * w / g)) A3). { apply bd_opp, bd_div; [|exact hp|exact GP]. apply bd_mult; [apply bd_refl|exact Bw]. }
      split; [|split].
      + unfold p. fold p. pose proof (Rabs_pos x). pose proof (Rabs_pos n). apply Rle_trans with (1 * (Rabs x + Rabs p + Rabs n)); [lra|].
        apply Rmult_le_compat_r; [exact NN|]. unfold C, S1, S2. lra.
      + rewrite !T_d2phi_eq.
        replace (-3 * T_Hub K U te y s * T_dphi te y s - pdV U (T_phi te y s) - (-3 * T_Hub K U te z s * T_dphi te z s - pdV U (T_phi te z s)))
          with ((- (3 * T_dphi te z s * (v / 3 / g)) - v') * x + (- (3 * T_Hub K U te y s) - 3 * T_dphi te z s * ((T_dphi te y s + T_dphi te z s) / 6 / g)) * p + (- (3 * T_dphi te z s * (- (K * w / g)))) * n).
        * assert (B3' : bd 3 3) by (unfold bd; rewrite Rabs_right; lra).
          apply Rle_trans with (S2 * (Rabs x + Rabs p + Rabs n)); [|apply Rmult_le_compat_r; [exact NN|unfold C, S1, S2; lra]].
          unfold S2. apply bd_lin3.
          -- apply bd_minus; [apply bd_opp, bd_mult; [apply bd_mult; [exact B3'|exact (BP2 s Hs')]|exact b1]|exact Bv'].
          -- apply bd_minus; [apply bd_opp, bd_mult; [exact B3'|exact (BQ s Hs)]|apply bd_mult; [apply bd_mult; [exact B3'|exact (BP2 s Hs')]|exact b2]].
          -- apply bd_opp, bd_mult; [apply bd_mult; [exact B3'|exact (BP2 s Hs')]|exact b3].
        * replace (-3 * T_Hub K U te y s * T_dphi te y s - pdV U (T_phi te y s) - (-3 * T_Hub K U te z s * T_dphi te z s - pdV U (T_phi te z s)))
            with (-3 * T_Hub K U te y s * p - 3 * T_dphi te z s * (T_Hub K U te y s - T_Hub K U te z s) - (pdV U (T_phi te y s) - pdV U (T_phi te z s))) by (unfold p; ring).
          rewrite EH, Ev'. ring.
      + rewrite EH. apply Rle_trans with (S1 * (Rabs x + Rabs p + Rabs n)); [unfold S1; apply bd_lin3; assumption|].
        apply Rmult_le_compat_r; [exact NN|unfold C, S1, S2; lra].
Qed.
End Time.

Section Efolds.
Variables (K : R) (U : potfun) (tt te : bool) (a b : R) (y : R -> list R).
Hypothesis By : N_background K U tt te y a b.
Lemma N_tube c d t0 r0 : a < c -> d < b -> c <= t0 <= d -> 0 < r0 -> smooth_around U (N_phi tt te y) c d r0 ->
  exists C r, 0 <= C /\ 0 < r /\ forall z a' b', N_background K U tt te z a' b' -> a' < c -> d < b' ->
    forall c1 d1, c <= c1 -> c1 <= t0 <= d1 -> d1 <= d -> (forall s, c1 <= s <= d1 -> N_gap tt te y z s <= r ^ 2) ->
    forall t, c1 <= t <= d1 -> N_gap tt te y z t <= N_gap tt te y z t0 * exp (6 * C * Rabs (t - t0)).
Proof.
  intros Hc Hd Ht0 Hr0 SA. assert (L : c <= d) by lra.
  assert (IN : forall s, c <= s <= d -> a < s < b) by (intros; lra).
  assert (Dy := fun s Hs => N_comps K U tt te y a b By s (IN s Hs)).
  assert (C1 : cont_in (N_phi tt te y) c d) by (apply (deriv_cont _ (N_dphi tt te y)); intros s Hs; apply (Dy s Hs)).
  destruct (band _ c d r0 L C1) as (m' & M' & LM' & RG' & FILL).
  set (m := m' - r0). set (M := M' + r0). assert (LM : m <= M) by (unfold m, M; lra).
  assert (SM : forall x, m <= x <= M -> smooth_pot U x) by (intros x Hx; destruct (FILL x Hx ltac:(lra)) as (s & Hs & B); exact (SA s x Hs B)).
  destruct (bounded (pdV U) m M LM) as (L1 & L1p & B1); [apply (deriv_cont _ (pd2V U)); intros s Hs; apply (SM s Hs)|].
  destruct (bounded (pd2V U) m M LM) as (L2 & L2p & B2); [apply (deriv_cont _ (pd3V U)); intros s Hs; apply (SM s Hs)|].
  destruct (bounded (fun x => K * exp (-2 * x)) c d L) as (E & Ep & BE).
  { apply (deriv_cont _ (fun x => -2 * K * exp (-2 * x))). intros s _. auto_derive; [exact I|ring]. }
  destruct (bounded (N_dphi tt te y) c d L) as (P1 & P1p & BP1); [apply (deriv_cont _ (N_d2phi K U tt te y)); intros s Hs; apply (Dy s Hs)|].
  destruct (bounded_below (W_of K U tt te y) c d L) as (w & wp & Bw).
  { eapply deriv_cont. intros s Hs. exact (W_derive K U tt te a b y s By (IN s Hs)). }
  { intros s Hs. exact (W_nonzero K U tt te a b y s By (IN s Hs)). }
  set (r := Rmin r0 (w / (4 * (L1 + 1)))). set (u := w / 2).
  assert (w4 : 0 < w / (4 * (L1 + 1))) by (apply Rdiv_lt_0_compat; lra).
  assert (Hr : 0 < r) by (unfold r; apply Rmin_pos; assumption). assert (Rr : r <= r0) by apply Rmin_l.
  assert (Lr : 2 * L1 * r <= w / 2).
  { assert (r <= w / (4 * (L1 + 1))) by apply Rmin_r. apply Rle_trans with (2 * (L1 + 1) * r); [apply Rmult_le_compat_r; lra|].
    apply Rle_trans with (2 * (L1 + 1) * (w / (4 * (L1 + 1)))); [apply Rmult_le_compat_l; lra|]. right. field. lra. }
  assert (up : 0 < u) by (unfold u; lra). set (P2 := P1 + r). assert (P2p : 0 <= P2) by (unfold P2; lra).
  assert (B6 : bd 6 6) by (unfold bd; rewrite Rabs_right; lra). assert (B3' : bd 3 3) by (unfold bd; rewrite Rabs_right; lra). assert (B2' : bd 2 2) by (unfold bd; rewrite Rabs_right; lra).
  assert (BG1 : forall s, c <= s <= d -> bd (G_of K U tt te y s) ((6 + P1 * P1) * / w)).
  { intros s Hs. apply bd_div; [|exact wp|exact (Bw s Hs)]. apply bd_minus; [exact B6|]. replace (N_dphi tt te y s ^ 2) with (N_dphi tt te y s * N_dphi tt te y s) by ring. apply bd_mult; exact (BP1 s Hs). }
  set (Q1 := (6 + P1 * P1) * / w) in *. set (Q2 := (6 + P2 * P2) * / u) in *.
  set (A1 := (E * P2 + L1) * (2 * L1 * Q2 * / w) + Q2 * L2).
  set (A2 := (P1 * P1 + P1 * P2 + P2 * P2) * / 2 + 3 + E * Q1 + (E * P2 + L1) * ((P1 + P2) * / w)).
  set (C := 1 + Rabs A1 + Rabs A2).
  assert (CP : 0 <= C) by (unfold C; pose proof (Rabs_pos A1); pose proof (Rabs_pos A2); lra).
  exists C, r. split; [exact CP|]. split; [exact Hr|]. intros z a' b' Bz Hc' Hd' c1 d1 K1 K2 K3 TUBE.
  assert (IN' : forall s, c <= s <= d -> a' < s < b') by (intros; lra).
  assert (Dz := fun s Hs => N_comps K U tt te z a' b' Bz s (IN' s Hs)).
  assert (COMP : forall s, c1 <= s <= d1 -> Rabs (N_phi tt te y s - N_phi tt te z s) <= r /\ Rabs (N_dphi tt te y s - N_dphi tt te z s) <= r).
  { intros s Hs. pose proof (TUBE s Hs) as G. unfold N_gap in G.
    pose proof (pow2_ge_0 (N_phi tt te y s - N_phi tt te z s)). pose proof (pow2_ge_0 (N_dphi tt te y s - N_dphi tt te z s)).
    split; (apply (sq_bd _ (r ^ 2)); [lra|lra|lra]). }
  assert (RG : forall s, c1 <= s <= d1 -> m <= N_phi tt te y s <= M /\ m <= N_phi tt te z s <= M).
  { intros s Hs. destruct (COMP s Hs) as (X & _). pose proof (RG' s ltac:(lra)) as R0. split; [unfold m, M; lra|].
    pose proof (near_in _ _ _ _ _ R0 X). unfold m, M. lra. }
  assert (BP2 : forall s, c1 <= s <= d1 -> Rabs (N_dphi tt te z s) <= P2).
  { intros s Hs. destruct (COMP s Hs) as (_ & X). pose proof (BP1 s ltac:(lra)) as Y. unfold P2. apply Rabs_le_between in X. apply Rabs_le_between in Y. apply Rabs_le. lra. }
  assert (Bu : forall s, c1 <= s <= d1 -> u <= Rabs (W_of K U tt te z s)).
  { intros s Hs. destruct (RG s Hs) as [R1 R2]. destruct (COMP s Hs) as (X & _).
    destruct (slope (pV U) (pdV U) m M L1) with (x := N_phi tt te y s) (z := N_phi tt te z s) as (v & Bv & Ev); [intros; apply SM; assumption|exact B1|exact R1|exact R2|].
    assert (EW : W_of K U tt te y s - W_of K U tt te z s = 2 * (pV U (N_phi tt te y s) - pV U (N_phi tt te z s))) by (unfold W_of; ring).
    assert (BW : Rabs (W_of K U tt te y s - W_of K U tt te z s) <= w / 2).
    { rewrite EW, Ev, !Rabs_mult, (Rabs_right 2) by lra. apply Rle_trans with (2 * (L1 * r)); [|lra]. apply Rmult_le_compat_l; [lra|].
      apply Rmult_le_compat; [apply Rabs_pos|apply Rabs_pos|exact Bv|exact X]. }
    pose proof (Bw s ltac:(lra)) as WW. pose proof (Rabs_triang_inv (W_of K U tt te y s) (W_of K U tt te z s)). unfold u.
    pose proof (Rabs_triang (W_of K U tt te y s - W_of K U tt te z s) (W_of K U tt te z s)) as TR.
    replace (W_of K U tt te y s - W_of K U tt te z s + W_of K U tt te z s) with (W_of K U tt te y s) in TR by ring. lra. }
  assert (BG2 : forall s, c1 <= s <= d1 -> bd (G_of K U tt te z s) Q2).
  { intros s Hs. unfold Q2; apply bd_div; [|exact up|exact (Bu s Hs)]. apply bd_minus; [exact B6|]. replace (N_dphi tt te z s ^ 2) with (N_dphi tt te z s * N_dphi tt te z s) by ring. apply bd_mult; exact (BP2 s Hs). }
  assert (DD : forall t, c1 <= t <= d1 ->
    (N_phi tt te y t - N_phi tt te z t)^2 + (N_dphi tt te y t - N_dphi tt te z t)^2 + 0^2 <=
    ((N_phi tt te y t0 - N_phi tt te z t0)^2 + (N_dphi tt te y t0 - N_dphi tt te z t0)^2 + 0^2) * exp (6 * C * Rabs (t - t0))).
  { apply (stays_zero3 (fun s => N_phi tt te y s - N_phi tt te z s) (fun s => N_dphi tt te y s - N_dphi tt te z s) (fun _ => 0)
      (fun s => N_dphi tt te y s - N_dphi tt te z s) (fun s => N_d2phi K U tt te y s - N_d2phi K U tt te z s) (fun _ => 0) c1 d1 C t0 K2); [|exact CP|].
    - intros s Hs'. assert (Hs : c <= s <= d) by lra. destruct (Dy s Hs) as (X1 & X2 & _). destruct (Dz s Hs) as (Y1 & Y2 & _).
      split; [apply is_derive_sub; assumption|]. split; [apply is_derive_sub; assumption|exact (@is_derive_const R_AbsRing R_NormedModule 0 s)].
    - intros s Hs'. assert (Hs : c <= s <= d) by lra. cbn zeta. set (x := N_phi tt te y s - N_phi tt te z s). set (p := N_dphi tt te y s - N_dphi tt te z s).
      rewrite Rabs_R0.
      assert (NN : 0 <= Rabs x + Rabs p + 0) by (pose proof (Rabs_pos x); pose proof (Rabs_pos p); lra).
      destruct (RG s Hs') as [R1 R2].
      destruct (slope (pV U) (pdV U) m M L1) with (x := N_phi tt te y s) (z := N_phi tt te z s) as (v & Bv & Ev); [intros; apply SM; assumption|exact B1|exact R1|exact R2|].
      destruct (slope (pdV U) (pd2V U) m M L2) with (x := N_phi tt te y s) (z := N_phi tt te z s) as (v' & Bv' & Ev'); [intros; apply SM; assumption|exact B2|exact R1|exact R2|].
      fold x in Ev, Ev'.
      assert (W1 := W_nonzero K U tt te a b y s By (IN s Hs)). assert (W2 := W_nonzero K U tt te a' b' z s Bz (IN' s Hs)).
      set (p1 := N_dphi tt te y s) in *. set (p2 := N_dphi tt te z s) in *. set (ke := K * exp (-2 * s)). set (D1 := pdV U (N_phi tt te y s)) in *.
      assert (EW : W_of K U tt te y s - W_of K U tt te z s = 2 * v * x) by (replace (2 * v * x) with (2 * (v * x)) by ring; rewrite <- Ev; unfold W_of; ring).
      assert (EG : G_of K U tt te y s - G_of K U tt te z s = - (2 * v * G_of K U tt te z s / W_of K U tt te y s) * x + - ((p1 + p2) / W_of K U tt te y s) * p).
      { apply Rmult_eq_reg_r with (W_of K U tt te y s); [|exact W1].
        replace ((- (2 * v * G_of K U tt te z s / W_of K U tt te y s) * x + - ((p1 + p2) / W_of K U tt te y s) * p) * W_of K U tt te y s) with (- (2 * v * x) * G_of K U tt te z s - (p1 + p2) * p) by (field; exact W1).
        rewrite <- EW. unfold G_of. fold p1 p2. unfold p. field. split; assumption. }
      split; [|split].
      + fold p. pose proof (Rabs_pos x). apply Rle_trans with (1 * (Rabs x + Rabs p + 0)); [lra|].
        apply Rmult_le_compat_r; [exact NN|]. unfold C. pose proof (Rabs_pos A1). pose proof (Rabs_pos A2). lra.
      + rewrite (d2phi_G K U tt te a b y s By (IN s Hs)), (d2phi_G K U tt te a' b' z s Bz (IN' s Hs)). fold p1 p2 ke D1.
        replace (p1 ^ 3 / 2 - 3 * p1 - (ke * p1 + D1) * G_of K U tt te y s - (p2 ^ 3 / 2 - 3 * p2 - (ke * p2 + pdV U (N_phi tt te z s)) * G_of K U tt te z s))
          with (((ke * p2 + D1) * (2 * v * G_of K U tt te z s / W_of K U tt te y s) - G_of K U tt te z s * v') * x + ((p1 * p1 + p1 * p2 + p2 * p2) / 2 - 3 - ke * G_of K U tt te y s + (ke * p2 + D1) * ((p1 + p2) / W_of K U tt te y s)) * p + 0 * 0).
        * apply Rle_trans with ((A1 + A2 + 0) * (Rabs x + Rabs p + 0));
            [|apply Rmult_le_compat_r; [exact NN|unfold C; pose proof (Rle_abs A1); pose proof (Rle_abs A2); lra]].
          pose proof (BP1 s Hs) as b1. pose proof (BP2 s Hs') as b2. pose proof (BE s Hs) as be. fold p1 in b1. fold p2 in b2. cbv beta in be. fold ke in be.
          assert (bD : bd D1 L1) by (apply B1; exact R1).
          replace (Rabs x + Rabs p + 0) with (Rabs x + Rabs p + Rabs 0) by (rewrite Rabs_R0; reflexivity).
          assert (bA : bd (ke * p2 + D1) (E * P2 + L1)) by (apply bd_plus; [apply bd_mult; assumption|exact bD]).
          apply bd_lin3.
          -- apply bd_minus; [|apply bd_mult; [exact (BG2 s Hs')|exact Bv'] ]. apply bd_mult; [exact bA|]. apply bd_div; [|exact wp|exact (Bw s Hs)].
             apply bd_mult; [apply bd_mult; assumption|exact (BG2 s Hs')].
          -- apply bd_plus; [|apply bd_mult; [exact bA|]; apply bd_div; [apply bd_plus; assumption|exact wp|exact (Bw s Hs)] ].
             apply bd_minus; [|apply bd_mult; [exact be|exact (BG1 s Hs)] ]. apply bd_minus; [|exact B3'].
             apply bd_mult; [|unfold bd; rewrite Rabs_right; lra]. apply bd_plus; [apply bd_plus|]; apply bd_mult; assumption.
          -- unfold bd. rewrite Rabs_R0. lra.
        * replace (p1 ^ 3 / 2 - 3 * p1 - (ke * p1 + D1) * G_of K U tt te y s - (p2 ^ 3 / 2 - 3 * p2 - (ke * p2 + pdV U (N_phi tt te z s)) * G_of K U tt te z s))
            with ((p1 * p1 + p1 * p2 + p2 * p2) / 2 * p - 3 * p - ke * G_of K U tt te y s * p - (ke * p2 + D1) * (G_of K U tt te y s - G_of K U tt te z s) - G_of K U tt te z s * (D1 - pdV U (N_phi tt te z s))) by (unfold p; field).
          rewrite EG, Ev'. field. exact W1.
      + apply Rmult_le_pos; assumption. }
  intros t Ht. specialize (DD t Ht). unfold N_gap. replace (0 ^ 2) with 0 in DD by ring. rewrite !Rplus_0_r in DD. exact DD.
Qed.
End Efolds.

Lemma gap_T_cont K U te y z a b a' b' c d : T_background K U te y a b -> T_background K U te z a' b' -> a < c -> d < b -> a' < c -> d < b' -> cont_in (T_gap te y z) c d.
Proof.
  intros By Bz H1 H2 H3 H4 s Hs. destruct (T_comps K U te y a b By s ltac:(lra)) as (X1 & X2 & X3 & _). destruct (T_comps K U te z a' b' Bz s ltac:(lra)) as (Y1 & Y2 & Y3 & _).
  unfold T_gap. apply (ex_derive_continuous (fun t => (T_phi te y t - T_phi te z t)^2 + (T_dphi te y t - T_dphi te z t)^2 + (T_N te y t - T_N te z t)^2)).
  auto_derive. repeat split; eexists; eassumption.
Qed.
Lemma gap_N_cont K U tt te y z a b a' b' c d : N_background K U tt te y a b -> N_background K U tt te z a' b' -> a < c -> d < b -> a' < c -> d < b' -> cont_in (N_gap tt te y z) c d.
Proof.
  intros By Bz H1 H2 H3 H4 s Hs. destruct (N_comps K U tt te y a b By s ltac:(lra)) as (X1 & X2 & _). destruct (N_comps K U tt te z a' b' Bz s ltac:(lra)) as (Y1 & Y2 & _).
  unfold N_gap. apply (ex_derive_continuous (fun t => (N_phi tt te y t - N_phi tt te z t)^2 + (N_dphi tt te y t - N_dphi tt te z t)^2)).
  auto_derive. repeat split; eexists; eassumption.
Qed.
Lemma T_gap_pos te y z t : 0 <= T_gap te y z t.
Proof. unfold T_gap. pose proof (pow2_ge_0 (T_phi te y t - T_phi te z t)). pose proof (pow2_ge_0 (T_dphi te y t - T_dphi te z t)). pose proof (pow2_ge_0 (T_N te y t - T_N te z t)). lra. Qed.
Lemma N_gap_pos tt te y z t : 0 <= N_gap tt te y z t.
Proof. unfold N_gap. pose proof (pow2_ge_0 (N_phi tt te y t - N_phi tt te z t)). pose proof (pow2_ge_0 (N_dphi tt te y t - N_dphi tt te z t)). lra. Qed.
(** from an estimate inside the tube to an estimate without mention of the tube *)
Lemma leave_tube (g : R -> R) c d t0 r C : c <= t0 <= d -> cont_in g c d -> (forall t, 0 <= g t) -> 0 <= C ->
  g t0 < r ^ 2 * exp (- (6 * C * (d - c))) ->
  (forall c1 d1, c <= c1 -> c1 <= t0 <= d1 -> d1 <= d -> (forall s, c1 <= s <= d1 -> g s <= r ^ 2) -> forall t, c1 <= t <= d1 -> g t <= g t0 * exp (6 * C * Rabs (t - t0))) ->
  forall t, c <= t <= d -> g t <= g t0 * exp (6 * C * Rabs (t - t0)).
Proof.
  intros HT HC P CP SM ST.
  assert (MX : forall t, c <= t <= d -> exp (6 * C * Rabs (t - t0)) <= exp (6 * C * (d - c))).
  { intros t Ht. assert (Rabs (t - t0) <= d - c) by (apply Rabs_le; lra).
    assert (X : 6 * C * Rabs (t - t0) <= 6 * C * (d - c)) by (apply Rmult_le_compat_l; lra). destruct X as [X| ->]; [left; apply exp_increasing, X|lra]. }
  set (G0 := g t0 * exp (6 * C * (d - c))).
  assert (HG : G0 < r ^ 2).
  { unfold G0. apply Rmult_lt_reg_r with (exp (- (6 * C * (d - c)))); [apply exp_pos|]. rewrite Rmult_assoc, <- exp_plus, Rplus_opp_r, exp_0, Rmult_1_r. exact SM. }
  assert (H0 : g t0 <= G0).
  { unfold G0. rewrite <- (Rmult_1_r (g t0)) at 1. apply Rmult_le_compat_l; [apply P|].
    pose proof (MX t0 HT) as M0. rewrite Rminus_diag_eq, Rabs_R0, Rmult_0_r, exp_0 in M0 by reflexivity. exact M0. }
  assert (ALL : forall t, c <= t <= d -> g t <= G0).
  { apply (boot g c d t0 (r ^ 2) G0 HT HC H0 HG). intros c1 d1 K1 K2 K3 T t Ht. eapply Rle_trans; [exact (ST c1 d1 K1 K2 K3 T t Ht)|].
    unfold G0. apply Rmult_le_compat_l; [apply P|]. apply MX. lra. }
  apply (ST c d ltac:(lra) HT ltac:(lra)). intros s Hs. pose proof (ALL s Hs). lra.
Qed.

(** Every cosmic-time run that starts close enough to a given one stays close to it: the distance
    in (phi, dphi/dt, N) grows at most exponentially, at a rate that depends only on the given run,
    in both directions of time. *)
Theorem C117_time : forall K U te y a b c d t0 r, T_background K U te y a b -> a < c -> d < b -> c <= t0 <= d -> 0 < r ->
  smooth_around U (T_phi te y) c d r ->
  exists C delta, 0 <= C /\ 0 < delta /\ forall z a' b', T_background K U te z a' b' -> a' < c -> d < b' -> T_gap te y z t0 < delta ->
    forall t, c <= t <= d -> T_gap te y z t <= T_gap te y z t0 * exp (C * Rabs (t - t0)).
Proof.
  intros K U te y a b c d t0 r By Hc Hd Ht0 Hr SA.
  destruct (T_tube K U te y a b By c d t0 r Hc Hd Ht0 ltac:(lra) SA) as (C & CP & ST).
  exists (6 * C), (r ^ 2 * exp (- (6 * C * (d - c)))). split; [lra|]. split; [apply Rmult_lt_0_compat; [apply pow_lt, Hr|apply exp_pos]|].
  intros z a' b' Bz Hc' Hd' SM. apply (leave_tube (T_gap te y z) c d t0 r C Ht0); [exact (gap_T_cont K U te y z a b a' b' c d By Bz Hc Hd Hc' Hd')|apply T_gap_pos|exact CP|exact SM|].
  exact (ST z a' b' Bz Hc' Hd').
Qed.
Theorem C117_efolds : forall K U tt te y a b c d n0 r, N_background K U tt te y a b -> a < c -> d < b -> c <= n0 <= d -> 0 < r ->
  smooth_around U (N_phi tt te y) c d r ->
  exists C delta, 0 <= C /\ 0 < delta /\ forall z a' b', N_background K U tt te z a' b' -> a' < c -> d < b' -> N_gap tt te y z n0 < delta ->
    forall n, c <= n <= d -> N_gap tt te y z n <= N_gap tt te y z n0 * exp (C * Rabs (n - n0)).
Proof.
  intros K U tt te y a b c d t0 r0 By Hc Hd Ht0 Hr0 SA.
  destruct (N_tube K U tt te a b y By c d t0 r0 Hc Hd Ht0 Hr0 SA) as (C & r & CP & Hr & ST).
  exists (6 * C), (r ^ 2 * exp (- (6 * C * (d - c)))). split; [lra|]. split; [apply Rmult_lt_0_compat; [apply pow_lt, Hr|apply exp_pos]|].
  intros z a' b' Bz Hc' Hd' SM. apply (leave_tube (N_gap tt te y z) c d t0 r C Ht0); [exact (gap_N_cont K U tt te y z a b a' b' c d By Bz Hc Hd Hc' Hd')|apply N_gap_pos|exact CP|exact SM|].
  exact (ST z a' b' Bz Hc' Hd').
Qed.

(** ... so the state at every moment of a stretch is a continuous function of the state at t0 *)
Lemma small_gap D e E : 0 < e -> 0 < E -> 0 < D -> exists dl, 0 < dl /\ forall x p n, Rabs x < dl -> Rabs p < dl -> Rabs n < dl -> x^2 + p^2 + n^2 < D /\ (x^2 + p^2 + n^2) * E < e ^ 2.
Proof.
  intros He HE HD. set (dl := sqrt (Rmin D (e ^ 2 / E) / 3)).
  assert (0 < e ^ 2 / E) by (apply Rdiv_lt_0_compat; [apply pow_lt, He|exact HE]).
  assert (MP : 0 < Rmin D (e ^ 2 / E)) by (apply Rmin_pos; assumption).
  assert (DP : 0 < dl) by (apply sqrt_lt_R0; lra). exists dl. split; [exact DP|]. intros x p n Hx Hp Hn.
  assert (SQ : forall v, Rabs v < dl -> v ^ 2 < Rmin D (e ^ 2 / E) / 3).
  { intros v Hv. assert (Q : Rsqr (sqrt (Rmin D (e ^ 2 / E) / 3)) = Rmin D (e ^ 2 / E) / 3) by (apply Rsqr_sqrt; lra). rewrite <- Q. fold dl. rewrite <- Rsqr_pow2. apply Rsqr_lt_abs_1. rewrite (Rabs_right dl) by lra. exact Hv. }
  pose proof (SQ x Hx). pose proof (SQ p Hp). pose proof (SQ n Hn).
  pose proof (Rmin_l D (e ^ 2 / E)). pose proof (Rmin_r D (e ^ 2 / E)). split; [lra|].
  apply Rlt_le_trans with (e ^ 2 / E * E); [apply Rmult_lt_compat_r; lra|]. right. field. lra.
Qed.
Lemma sq_lt x q e : 0 < e -> x ^ 2 <= q -> q < e ^ 2 -> Rabs x < e.
Proof. intros H A B. apply Rabs_lt_between. split; nra. Qed.
Lemma exp_mx C c d t0 t : 0 <= C -> c <= t0 <= d -> c <= t <= d -> exp (C * Rabs (t - t0)) <= exp (C * (d - c)).
Proof.
  intros CP H0 Ht. assert (Rabs (t - t0) <= d - c) by (apply Rabs_le; lra).
  assert (X : C * Rabs (t - t0) <= C * (d - c)) by (apply Rmult_le_compat_l; lra). destruct X as [X| ->]; [left; apply exp_increasing, X|lra].
Qed.
Theorem C117_time_continuous : forall K U te y a b c d t0 r, T_background K U te y a b -> a < c -> d < b -> c <= t0 <= d -> 0 < r ->
  smooth_around U (T_phi te y) c d r ->
  forall eps, 0 < eps -> exists delta, 0 < delta /\ forall z a' b', T_background K U te z a' b' -> a' < c -> d < b' ->
    Rabs (T_phi te y t0 - T_phi te z t0) < delta -> Rabs (T_dphi te y t0 - T_dphi te z t0) < delta -> Rabs (T_N te y t0 - T_N te z t0) < delta ->
    forall t, c <= t <= d -> Rabs (T_phi te y t - T_phi te z t) < eps /\ Rabs (T_dphi te y t - T_dphi te z t) < eps /\ Rabs (T_N te y t - T_N te z t) < eps.
Proof.
  intros K U te y a b c d t0 r By Hc Hd Ht0 Hr SA eps He.
  destruct (C117_time K U te y a b c d t0 r By Hc Hd Ht0 Hr SA) as (C & D & CP & DP & ST).
  destruct (small_gap D eps (exp (C * (d - c))) He (exp_pos _) DP) as (dl & dp & Q). exists dl. split; [exact dp|].
  intros z a' b' Bz Hc' Hd' X P N t Ht. destruct (Q _ _ _ X P N) as [Q1 Q2]. pose proof (ST z a' b' Bz Hc' Hd' Q1 t Ht) as G.
  assert (LT : T_gap te y z t < eps ^ 2).
  { eapply Rle_lt_trans; [exact G|]. eapply Rle_lt_trans; [|exact Q2]. apply Rmult_le_compat_l; [apply T_gap_pos|]. apply exp_mx; assumption. }
  pose proof (pow2_ge_0 (T_phi te y t - T_phi te z t)). pose proof (pow2_ge_0 (T_dphi te y t - T_dphi te z t)). pose proof (pow2_ge_0 (T_N te y t - T_N te z t)).
  unfold T_gap in LT. repeat split; (eapply sq_lt; [exact He| |exact LT]); lra.
Qed.
Theorem C117_efolds_continuous : forall K U tt te y a b c d n0 r, N_background K U tt te y a b -> a < c -> d < b -> c <= n0 <= d -> 0 < r ->
  smooth_around U (N_phi tt te y) c d r ->
  forall eps, 0 < eps -> exists delta, 0 < delta /\ forall z a' b', N_background K U tt te z a' b' -> a' < c -> d < b' ->
    Rabs (N_phi tt te y n0 - N_phi tt te z n0) < delta -> Rabs (N_dphi tt te y n0 - N_dphi tt te z n0) < delta ->
    forall n, c <= n <= d -> Rabs (N_phi tt te y n - N_phi tt te z n) < eps /\ Rabs (N_dphi tt te y n - N_dphi tt te z n) < eps.
Proof.
  intros K U tt te y a b c d t0 r By Hc Hd Ht0 Hr SA eps He.
  destruct (C117_efolds K U tt te y a b c d t0 r By Hc Hd Ht0 Hr SA) as (C & D & CP & DP & ST).
  destruct (small_gap D eps (exp (C * (d - c))) He (exp_pos _) DP) as (dl & dp & Q). exists dl. split; [exact dp|].
  intros z a' b' Bz Hc' Hd' X P t Ht. destruct (Q _ _ 0 X P ltac:(rewrite Rabs_R0; exact dp)) as [Q1 Q2]. replace (0 ^ 2) with 0 in Q1, Q2 by ring. rewrite Rplus_0_r in Q1, Q2.
  pose proof (ST z a' b' Bz Hc' Hd' Q1 t Ht) as G.
  assert (LT : N_gap tt te y z t < eps ^ 2).
  { eapply Rle_lt_trans; [exact G|]. eapply Rle_lt_trans; [|exact Q2]. apply Rmult_le_compat_l; [apply N_gap_pos|]. apply exp_mx; assumption. }
  pose proof (pow2_ge_0 (N_phi tt te y t - N_phi tt te z t)). pose proof (pow2_ge_0 (N_dphi tt te y t - N_dphi tt te z t)).
  unfold N_gap in LT. repeat split; (eapply sq_lt; [exact He| |exact LT]); lra.
Qed.

(** ... and so does the end of inflation: if a run accelerates (V > dphi^2) at t1 and decelerates at t2,
    every run starting close enough also stops accelerating between t1 and t2 *)
Lemma accel_near (V : R -> R) (phi p : R) : continuous V phi -> forall m, 0 < m -> exists e, 0 < e /\
  forall x q, Rabs (phi - x) < e -> Rabs (p - q) < e -> Rabs ((V phi - p ^ 2) - (V x - q ^ 2)) < m.
Proof.
  intros CV m Hm. destruct (cont_eps V phi (m / 2) CV ltac:(lra)) as (e1 & P1 & Q1).
  destruct (cont_eps (fun q => q ^ 2) p (m / 2)) as (e2 & P2 & Q2); [apply (ex_derive_continuous (fun q => q ^ 2)); auto_derive; exact I|lra|].
  exists (Rmin e1 e2). split; [apply Rmin_pos; assumption|]. intros x q Hx Hq. pose proof (Rmin_l e1 e2). pose proof (Rmin_r e1 e2).
  rewrite Rabs_minus_sym in Hx, Hq. pose proof (Q1 x ltac:(lra)) as A. pose proof (Q2 q ltac:(lra)) as B. cbv beta in B.
  apply Rabs_lt_between in A. apply Rabs_lt_between in B. apply Rabs_lt_between. lra.
Qed.
Theorem C117_end_of_inflation : forall K U te y a b c d t0 r t1 t2, T_background K U te y a b -> a < c -> d < b -> c <= t0 <= d -> 0 < r ->
  smooth_around U (T_phi te y) c d r -> c <= t1 -> t1 < t2 -> t2 <= d ->
  T_dphi te y t1 ^ 2 < pV U (T_phi te y t1) -> pV U (T_phi te y t2) < T_dphi te y t2 ^ 2 ->
  exists delta, 0 < delta /\ forall z a' b', T_background K U te z a' b' -> a' < c -> d < b' ->
    Rabs (T_phi te y t0 - T_phi te z t0) < delta -> Rabs (T_dphi te y t0 - T_dphi te z t0) < delta -> Rabs (T_N te y t0 - T_N te z t0) < delta ->
    T_dphi te z t1 ^ 2 < pV U (T_phi te z t1) /\ pV U (T_phi te z t2) < T_dphi te z t2 ^ 2 /\
    exists t, t1 < t < t2 /\ pV U (T_phi te z t) = T_dphi te z t ^ 2.
Proof.
  intros K U te y a b c d t0 r t1 t2 By Hc Hd Ht0 Hr SA H1 H12 H2 I1 I2.
  assert (CV : forall s, c <= s <= d -> continuous (pV U) (T_phi te y s)).
  { intros s Hs. apply (ex_derive_continuous (pV U)). eexists. apply (T_smooth K U te y a b By s). lra. }
  destruct (accel_near (pV U) (T_phi te y t1) (T_dphi te y t1) (CV t1 ltac:(lra)) (pV U (T_phi te y t1) - T_dphi te y t1 ^ 2) ltac:(lra)) as (e1 & E1 & N1).
  destruct (accel_near (pV U) (T_phi te y t2) (T_dphi te y t2) (CV t2 ltac:(lra)) (T_dphi te y t2 ^ 2 - pV U (T_phi te y t2)) ltac:(lra)) as (e2 & E2 & N2).
  destruct (C117_time_continuous K U te y a b c d t0 r By Hc Hd Ht0 Hr SA (Rmin e1 e2) ltac:(apply Rmin_pos; assumption)) as (dl & dp & Q).
  exists dl. split; [exact dp|]. intros z a' b' Bz Hc' Hd' X P N. specialize (Q z a' b' Bz Hc' Hd' X P N). pose proof (Rmin_l e1 e2). pose proof (Rmin_r e1 e2).
  destruct (Q t1 ltac:(lra)) as (X1 & P1 & _). destruct (Q t2 ltac:(lra)) as (X2 & P2 & _).
  pose proof (N1 _ _ (Rlt_le_trans _ _ _ X1 H) (Rlt_le_trans _ _ _ P1 H)) as A1. pose proof (N2 _ _ (Rlt_le_trans _ _ _ X2 H0) (Rlt_le_trans _ _ _ P2 H0)) as A2.
  apply Rabs_lt_between in A1. apply Rabs_lt_between in A2.
  assert (S1 : T_dphi te z t1 ^ 2 < pV U (T_phi te z t1)) by lra. assert (S2 : pV U (T_phi te z t2) < T_dphi te z t2 ^ 2) by lra.
  split; [exact S1|]. split; [exact S2|].
  destruct (ivt (fun s => pV U (T_phi te z s) - T_dphi te z s ^ 2) t1 t2 0) as (t & Ht & Et).
  - lra.
  - intros s Hs. destruct (T_comps K U te z a' b' Bz s ltac:(lra)) as (Y1 & Y2 & _). destruct (T_smooth K U te z a' b' Bz s ltac:(lra)) as (Y3 & _).
    apply (ex_derive_continuous (fun s => pV U (T_phi te z s) - T_dphi te z s ^ 2)). auto_derive. repeat split; eexists; eassumption.
  - rewrite Rmin_right, Rmax_left by lra. lra.
  - cbv beta in Et. exists t. split; [|lra]. split; [destruct (Req_dec t t1) as [->|]; lra|destruct (Req_dec t t2) as [->|]; lra].
Qed.

(** a universe in which inflation ends: phi = t, H = 2 - t/2, V = 3 (2 - phi/2)^2 - 1/2 *)
Definition Vend : potfun := mkpotfun (fun x => 3 * (2 - x / 2)^2 - 1 / 2) (fun x => - (3 * (2 - x / 2))) (fun _ => 3 / 2) (fun _ => 0).
Definition y_end (t : R) : list R := [t; 1; 2 * t - t ^ 2 / 4].
Lemma Vend_smooth x : smooth_pot Vend x.
Proof. split; [|split]; unfold Vend; simpl; evar_last; try (auto_derive; [exact I|reflexivity]); simpl; field. Qed.
Lemma end_H2 t : T_H2 0 Vend false t (y_end t) = (2 - t / 2) ^ 2.
Proof. unfold T_H2, T_get_H2, y_end, Vend. cbn. field. Qed.
Lemma end_background : T_background 0 Vend false y_end 0 (7 / 2).
Proof.
  split.
  - intros t Ht. split; [reflexivity|]. assert (EH : sqrt (T_H2 0 Vend false t (y_end t)) = 2 - t / 2) by (rewrite end_H2; apply sqrt_pow2; lra).
    assert (EC : T_call 0 Vend false t (y_end t) = [1; -3 * sqrt (T_H2 0 Vend false t (y_end t)) * 1 - pdV Vend t; sqrt (T_H2 0 Vend false t (y_end t))]) by reflexivity.
    intros i Hi. rewrite EC, EH. destruct i as [|[|[|i]]]; [| | |cbn in Hi; lia]; cbn [nth y_end]; evar_last; try (auto_derive; [exact I|reflexivity]); unfold Vend; cbn [pdV]; field.
  - intros t Ht. split; [|apply Vend_smooth]. rewrite end_H2. apply pow_lt. lra.
Qed.
Theorem C117_nonvacuous :
  T_background 0 Vend false y_end 0 (7 / 2) /\ smooth_around Vend (T_phi false y_end) 1 3 1 /\
  T_dphi false y_end 1 ^ 2 < pV Vend (T_phi false y_end 1) /\ pV Vend (T_phi false y_end 3) < T_dphi false y_end 3 ^ 2 /\
  (forall delta, 0 < delta -> exists z a' b', T_background 0 Vend false z a' b' /\ a' < 1 /\ 3 < b' /\ 0 < T_gap false y_end z 2 < delta) /\
  (exists z c d, c < d /\ N_background 0 Vend true false z c d) /\
  (** the end of inflation of the run itself, found by the theorem *)
  (exists t, 1 < t < 3 /\ pV Vend (T_phi false y_end t) = T_dphi false y_end t ^ 2).
Proof.
  assert (P0 : forall t, T_phi false y_end t = t) by reflexivity. assert (P1 : forall t, T_dphi false y_end t = 1) by reflexivity.
  assert (P2 : forall t, T_N false y_end t = 2 * t - t ^ 2 / 4) by reflexivity.
  split; [exact end_background|]. split; [intros s x _ _; apply Vend_smooth|].
  split; [rewrite P0, P1; unfold Vend; simpl; lra|]. split; [rewrite P0, P1; unfold Vend; simpl; lra|]. split; [|split].
  - intros delta Hd. set (h := Rmin (1 / 10) (delta / 4)). assert (0 < h) by (unfold h; apply Rmin_pos; lra).
    assert (h <= 1 / 10) by apply Rmin_l. assert (h <= delta / 4) by apply Rmin_r.
    exists (fun t => y_end (t + h)), (0 - h), (7 / 2 - h). split; [apply T_shift, end_background|]. split; [lra|]. split; [lra|].
    assert (E : T_gap false y_end (fun t => y_end (t + h)) 2 = h ^ 2 + (h - h ^ 2 / 4) ^ 2).
    { unfold T_gap. change (T_phi false (fun t => y_end (t + h)) 2) with (2 + h). change (T_dphi false (fun t => y_end (t + h)) 2) with 1.
      change (T_N false (fun t => y_end (t + h)) 2) with (2 * (2 + h) - (2 + h) ^ 2 / 4). rewrite P0, P1, P2. field. }
    rewrite E. assert (0 < h ^ 2) by (apply pow_lt; assumption). pose proof (pow2_ge_0 (h - h ^ 2 / 4)). split; [lra|].
    assert (h ^ 2 <= h / 10) by (simpl; nra). assert (0 <= h - h ^ 2 / 4 <= h) by lra. assert ((h - h ^ 2 / 4) ^ 2 <= h ^ 2) by (apply pow_incr; lra). lra.
  - destruct (C17_time_to_efolds 0 Vend true false y_end 0 3 (T_restrict _ _ _ _ _ _ 0 3 end_background ltac:(lra) ltac:(lra))) with (t0 := 1) (t1 := 2) as (tau & HT & B); try lra.
    { intros t Ht. rewrite P0. unfold Vend. simpl. intro Q. assert (0 < (2 - t / 2 - 1 / 2)) by lra. nra. }
    eexists _, _, _. split; [|exact B]. rewrite !P2. lra.
  - destruct (C117_end_of_inflation 0 Vend false y_end 0 (7 / 2) 1 3 2 1 1 3 end_background) as (dl & dp & Q); try lra.
    { intros s x _ _. apply Vend_smooth. }
    { rewrite P0, P1; unfold Vend; simpl; lra. } { rewrite P0, P1; unfold Vend; simpl; lra. }
    destruct (Q y_end 0 (7 / 2) end_background) as (_ & _ & X); try lra; try (rewrite Rminus_diag_eq by reflexivity; rewrite Rabs_R0; exact dp). exact X.
Qed.
