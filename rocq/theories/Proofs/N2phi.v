From Coq Require Import Reals ZArith Lra Lia List.
From Coquelicot Require Import Coquelicot.
From Verif Require Import Base Model.Potentials Model.Interp Model.SlowRoll Spec.PotentialSpec Spec.SlowRollSpec
  Proofs.BaseLemmas Proofs.PotentialDerivs Proofs.PotentialDerivsAll Proofs.PotentialEps Proofs.PotentialEps2 Proofs.InvV Proofs.PhiEnd
  Proofs.SRN Proofs.InterpLemmas.
Import ListNotations.
Open Scope R_scope.


Lemma mono_rt p N : 0 < p -> 0 <= N -> 0 < mono_N2phi p N /\ mono_phi2N p (mono_N2phi p N) = N.
Proof.
  intros Hp HN. unfold mono_N2phi, mono_phi2N.
  assert (0 < sqrt (2*p)) by (apply sqrt_lt_R0; lra). assert (0 < sqrt (4*N+p)) by (apply sqrt_lt_R0; lra).
  split; [apply Rdiv_lt_0_compat; [apply Rmult_lt_0_compat; assumption|lra]|].
  replace ((sqrt (2*p) * sqrt (4*N+p) / 2)^2) with ((sqrt (2*p) * sqrt (2*p)) * (sqrt (4*N+p) * sqrt (4*N+p)) / 4) by field.
  rewrite !sqrt_sqrt by lra. field; lra.
Qed.
Lemma xexp_lt E : 1 < E -> E * exp (- E) < exp (-1).
Proof.
  intros H. assert (E < exp (E - 1)).
  { pose proof (exp_ineq1 (E-1)) as X. assert (E - 1 <> 0) by lra. specialize (X H0). lra. }
  replace (exp (-1)) with (exp (E - 1) * exp (- E)) by (rewrite <- exp_plus; f_equal; ring).
  apply Rmult_lt_compat_r; [apply exp_pos|exact H0].
Qed.
Lemma star_rt W N : lambert_spec W -> 0 <= N -> 0 < star_N2phi W N /\ star_phi2N (star_N2phi W N) = N.
Proof.
  intros HW HN. unfold star_N2phi, star_phi2N. pose proof gamma_gt0 as Hg. set (pe := star_phi_end).
  set (E := exp (gamma * pe)). assert (HE : 1 < E) by (apply star_E_gt1, star_end_gt0).
  set (z := - exp (-2*N*gamma^2) * E * exp (- E)).
  assert (Hexp : 0 < exp (-2*N*gamma^2) <= 1).
  { split; [apply exp_pos|]. rewrite <- exp_0. destruct HN as [HN| <-].
    - left. apply exp_increasing. assert (0 < N * gamma^2) by (apply Rmult_lt_0_compat; [assumption|apply pow_lt; assumption]). lra.
    - right. f_equal. ring. }
  pose proof (xexp_lt E HE) as HX. assert (HX0 : 0 < E * exp (- E)) by (apply Rmult_lt_0_compat; [lra|apply exp_pos]).
  assert (Hz : - exp (-1) < z < 0).
  { unfold z. replace (- exp (-2 * N * gamma ^ 2) * E * exp (- E)) with (- (exp (-2 * N * gamma ^ 2) * (E * exp (- E)))) by ring.
    split; nra. }
  destruct (HW z ltac:(lra)) as [W1 W2]. set (w := W z) in *.
  assert (W3 : w < -1). { destruct W2 as [|W2]; [assumption|]. rewrite W2 in W1. lra. }
  assert (K : exp (gamma * (-2*N*gamma + pe - E/gamma - w/gamma)) = - w).
  { replace (gamma * (-2*N*gamma + pe - E/gamma - w/gamma)) with (((-2*N*gamma^2 + gamma * pe) + (- E)) + (- w)) by (field; lra).
    rewrite !exp_plus. fold E. replace (exp (-2*N*gamma^2) * E * exp (- E)) with (- z) by (unfold z; ring).
    rewrite <- W1. rewrite exp_Ropp. pose proof (exp_pos w). field; lra. }
  set (phi := -2*N*gamma + pe - E/gamma - w/gamma) in *.
  split.
  - destruct (Rlt_le_dec 0 phi) as [|Hle]; [assumption|exfalso].
    assert (exp (gamma * phi) <= exp 0); [|rewrite exp_0 in H; lra].
    destruct Hle as [Hl|He]; [|rewrite He; right; f_equal; ring].
    left; apply exp_increasing. assert (0 < gamma * (- phi)) by (apply Rmult_lt_0_compat; lra). lra.
  - rewrite K. unfold phi. field; lra.
Qed.
Lemma nat_rt phi0 N : 0 < phi0 -> 0 <= N -> 0 < nat_N2phi phi0 N < phi0 /\ nat_phi2N phi0 (nat_N2phi phi0 N) = N.
Proof.
  intros H0 HN. pose proof PI_RGT_0 as HPI. pose proof (nat_u_gt0 phi0 H0) as Hu. set (u := nat_u phi0) in *.
  pose proof (atan_pos u Hu) as Hat. set (a := atan u) in *.
  assert (Hc : 0 < cos a) by (apply cos_gt_0; lra).
  assert (Ht : tan a = u) by apply tan_atan.
  assert (Hcc : 1 + cos (2 * a) = 2 / (1 + u^2)).
  { rewrite cos_2a_cos. rewrite <- Ht. unfold tan. pose proof (sin2_cos2 a) as S. unfold Rsqr in S.
    assert (0 < 1 + (sin a / cos a)^2) by (pose proof (pow2_ge_0 (sin a / cos a)); lra).
    transitivity (2 * (cos a * cos a)); [ring|].
    replace (1 + (sin a / cos a)^2) with ((sin a * sin a + cos a * cos a) / (cos a * cos a)) by (field; lra).
    rewrite S. field; lra. }
  set (X := exp (PI^2*N/phi0^2)).
  assert (HX : 1 <= X).
  { unfold X. rewrite <- exp_0. assert (0 <= PI^2*N/phi0^2).
    { apply Rdiv_le_0_compat; [apply Rmult_le_pos; [apply pow_le; lra|exact HN]|apply pow_lt; exact H0]. }
    destruct H as [H| <-]; [left; apply exp_increasing; exact H|right; reflexivity]. }
  assert (Hq : (2 * X - cos (PI*nat_phi_end phi0/phi0) - 1) / (cos (PI*nat_phi_end phi0/phi0) + 1) = X * (1 + u^2) - 1).
  { rewrite nat_full by exact H0. fold u. fold a. 
    replace (2 * X - cos (2 * a) - 1) with (2 * X - (1 + cos (2*a))) by ring.
    replace (cos (2 * a) + 1) with (1 + cos (2*a)) by ring. rewrite Hcc. field.
    pose proof (pow2_ge_0 u); lra. }
  unfold nat_N2phi. fold X. rewrite Hq. set (s := sqrt (X * (1 + u^2) - 1)).
  assert (Hs0 : 0 < X * (1+u^2) - 1) by (pose proof (pow_lt u 2 Hu); nra).
  assert (Hs : 0 < s) by (apply sqrt_lt_R0; exact Hs0).
  pose proof (atan_pos s Hs) as Has.
  assert (Hhalf : PI * (2 * phi0 / PI * atan s) / (2 * phi0) = atan s) by (field; lra).
  split.
  - split; [apply Rmult_lt_0_compat; [apply Rdiv_lt_0_compat; lra|lra]|].
    replace (2 * phi0 / PI * atan s) with (2 * phi0 * atan s / PI) by (field; lra).
    apply Rmult_lt_reg_r with PI; [lra|]. unfold Rdiv; rewrite Rmult_assoc, Rinv_l, Rmult_1_r by lra.
    apply Rlt_le_trans with (2 * phi0 * (PI/2)); [apply Rmult_lt_compat_l; lra|lra].
  - unfold nat_phi2N. rewrite Hhalf, tan_atan. rewrite nat_half by exact H0. fold u. fold a. rewrite Ht.
    replace (s^2) with (s * s) by ring. unfold s. rewrite sqrt_sqrt by lra.
    replace (X * (1 + u^2) - 1 + 1) with (X * (u^2 + 1)) by ring.
    rewrite ln_mult by (pose proof (pow2_ge_0 u); lra). unfold X. rewrite ln_exp. field; lra.
Qed.
Lemma cosh_arccosh y : 1 <= y -> cosh (np_arccosh y) = y.
Proof.
  intros Hy. unfold np_arccosh, cosh. set (s := sqrt (y^2 - 1)).
  assert (Hs : 0 <= s) by apply sqrt_pos. assert (S : s * s = y^2 - 1) by (apply sqrt_sqrt; nra).
  assert (0 < y + s) by lra. rewrite exp_Ropp, exp_ln by assumption.
  replace (/ (y + s)) with (y - s); [lra|].
  apply Rmult_eq_reg_r with (y + s); [|lra]. rewrite Rinv_l by lra. nra.
Qed.
Lemma arccosh_gt0 y : 1 < y -> 0 < np_arccosh y.
Proof.
  intros Hy. unfold np_arccosh. rewrite <- ln_1. apply ln_increasing; [lra|]. pose proof (sqrt_pos (y^2-1)). lra.
Qed.
Lemma tm_rt p alpha N : 0 < p -> 0 < alpha -> 0 <= N -> 0 < tm_N2phi p alpha N /\ tm_phi2N p alpha (tm_N2phi p alpha N) = N.
Proof.
  intros Hp Ha HN. pose proof (s6a_gt0 alpha Ha) as Hs. set (s := s_6_a alpha) in *.
  unfold tm_N2phi, tm_phi2N. fold s. set (q := sqrt (8*p^2+s^2)).
  assert (Hq : s < q). { unfold q. rewrite <- (sqrt_pow2 s) at 1 by lra. apply sqrt_lt_1; pose proof (pow2_ge_0 s); pose proof (pow_lt p 2 Hp); lra. }
  assert (Hy : 1 < 8*p/s^2*N + q/s).
  { assert (1 < q/s). { apply Rmult_lt_reg_r with s; [exact Hs|]. unfold Rdiv; rewrite Rmult_assoc, Rinv_l by lra; lra. }
    assert (0 <= 8*p/s^2*N); [|lra]. apply Rmult_le_pos; [|exact HN]. apply Rdiv_le_0_compat; [lra|apply pow_lt; exact Hs]. }
  split; [apply Rmult_lt_0_compat; [lra|apply arccosh_gt0; exact Hy]|].
  replace (2 * (s / 2 * np_arccosh (8*p/s^2*N + q/s)) / s) with (np_arccosh (8*p/s^2*N + q/s)) by (field; lra).
  rewrite cosh_arccosh by lra. field; lra.
Qed.
Lemma rg2_rt alpha e N : 0 < alpha -> 0 < e -> 0 <= N ->
  0 < rg2_N2phi alpha e N /\ rg_phi2N 2 alpha e (rg2_N2phi alpha e N) = N.
Proof.
  intros Ha He HN. unfold rg2_N2phi. set (S := sqrt (8 * N * alpha + alpha^2 + 2 * alpha * e^2 + e^4)).
  assert (0 <= N * alpha) by (apply Rmult_le_pos; lra). assert (He2 : 0 < e^2) by (apply pow_lt; exact He).
  assert (0 < alpha * e^2) by (apply Rmult_lt_0_compat; assumption).
  assert (HS2 : S * S = 8 * N * alpha + alpha^2 + 2 * alpha * e^2 + e^4).
  { apply sqrt_sqrt. replace (e^4) with (e^2*e^2) by ring. nra. }
  assert (HS : alpha < S). { assert (0 <= S) by apply sqrt_pos. replace (e^4) with (e^2*e^2) in HS2 by ring. nra. }
  set (phi := sqrt (- alpha + S)). assert (Hphi : 0 < phi) by (apply sqrt_lt_R0; lra).
  assert (P2 : phi^2 = - alpha + S). { unfold phi. replace (sqrt (- alpha + S)^2) with (sqrt (- alpha + S) * sqrt (- alpha + S)) by ring. apply sqrt_sqrt; lra. }
  split; [exact Hphi|]. unfold rg_phi2N.
  replace (2 + 2) with 4 by ring. rewrite !pypow_4 by lra.
  replace (phi^4) with (phi^2*phi^2) by ring. rewrite P2.
  transitivity ((S*S - alpha^2 - e^4 - 2 * alpha * e^2) / (8 * alpha)); [field; lra|]. rewrite HS2. field; lra.
Qed.

Lemma N2phi_right root W P L e N phi : root_spec root -> lambert_spec W ->
  featureless P -> ~ double_well P -> valid P -> L <> 0 -> phi_end root P L = Ok e -> 0 <= N ->
  sr_N2phi root W P L N = Ok phi -> branch P phi /\ Nfun P e phi = N.
Proof.
  intros HR HW HF HD HV HL HE HN HQ.
  pose proof (phi_end_spec root P L e HR HF HV HL HE) as [He _].
  destruct P; simpl in HF, HD, HV; try tauto; unfold phi_end in HE; unfold sr_N2phi in HQ; unfold Nfun, branch;
  try (injection HQ as <-).
  - apply mono_rt; assumption.
  - apply mono_rt; lra.
  - apply mono_rt; lra.
  - apply mono_rt; lra.
  - apply mono_rt; lra.
  - apply star_rt; assumption.
  - apply nat_rt; assumption.
  - apply tm_rt; tauto.
  - unfold phi_end in HQ. rewrite HE in HQ. simpl bind in HQ. apply HR in HQ. destruct HQ as [H1 [H2 _]]. split; [|lra].
    apply Rlt_le_trans with (2 := H2). apply Rmin_pos; [exact He|].
    apply rg_inv_pos; try tauto. assert (1 < 10^15) by (apply Rlt_pow_R1; [lra|lia]).
    split; [apply Rinv_0_lt_compat; lra|]. rewrite <- Rinv_1. apply Rinv_lt_contravar; lra.
  - injection HE as <-. apply rg2_rt; assumption.
Qed.
Lemma N2phi_total root W P L e N : featureless P -> ~ double_well P -> phi_end root P L = Ok e ->
  match P with RadionGauge _ _ => True | _ => exists phi, sr_N2phi root W P L N = Ok phi end.
Proof.
  intros HF HD HE. destruct P; simpl in HF, HD; try tauto; unfold sr_N2phi; rewrite ?HE; eexists; reflexivity.
Qed.
Lemma branch_total P a b : branch P a -> branch P b -> featureless P -> valid P -> forall e, Nfun P e a = Nfun P e b -> a = b.
Proof.
  intros Ha Hb HF HV e HN. destruct (Rtotal_order a b) as [H|[H|H]]; [|exact H|].
  - pose proof (Nfun_incr P e a b HF HV Ha Hb H). lra.
  - pose proof (Nfun_incr P e b a HF HV Hb Ha H). lra.
Qed.
Lemma N2phi_left root W P L e phi phi' : root_spec root -> lambert_spec W ->
  featureless P -> ~ double_well P -> valid P -> L <> 0 -> phi_end root P L = Ok e -> branch P phi ->
  0 <= Nfun P e phi -> sr_N2phi root W P L (Nfun P e phi) = Ok phi' -> phi' = phi.
Proof.
  intros HR HW HF HD HV HL HE HB HN HQ.
  destruct (N2phi_right root W P L e _ phi' HR HW HF HD HV HL HE HN HQ) as [HB' HN'].
  exact (branch_total P phi' phi HB' HB HF HV e HN').
Qed.

(* ------- the tabulated inverse of the double well ------- *)
Lemma dw_phi0_pos P : double_well P -> valid P -> 0 < snd (dwP P).
Proof. intros HD HV. destruct P; simpl in *; tauto. Qed.
Lemma dw_featureless P : double_well P -> featureless P.
Proof. destruct P; simpl; tauto. Qed.
Definition Kgrid := Z.to_nat 99998.
Lemma Kgrid_INR : INR Kgrid = 99998.
Proof. unfold Kgrid. rewrite INR_IZR_INZ, Z2Nat.id by lia. reflexivity. Qed.
Lemma dw_grid_eq phi0 : dw_grid phi0 = map (fun k => INR k * (phi0/100000)) (seq 1 (S Kgrid)).
Proof.
  unfold dw_grid. assert (E : Z.to_nat 99999 = S Kgrid).
  { unfold Kgrid. rewrite <- Z2Nat.inj_succ by lia. apply f_equal. reflexivity. }
  rewrite E. reflexivity.
Qed.
Lemma Kgrid_Z : Z.of_nat Kgrid = 99998%Z.
Proof. unfold Kgrid. apply Z2Nat.id. lia. Qed.
#[global] Opaque Kgrid.
Lemma dw_chain P e : double_well P -> valid P ->
  chain (snd (dwP P) / 100000) (map (fun phi => (Nfun P e phi, phi)) (dw_grid (snd (dwP P)))).
Proof.
  intros HD HV. pose proof (dw_phi0_pos P HD HV) as H0.
  rewrite dw_grid_eq. apply chain_grid; [lra|]. intros i H1 H2.
  assert (Hi : 1 <= INR i) by (apply (le_INR 1); exact H1).
  assert (Hi2 : INR (S i) <= 99999). { replace 99999 with (INR (S Kgrid)) by (rewrite S_INR, Kgrid_INR; ring). apply le_INR; lia. }
  rewrite S_INR in *. set (h := snd (dwP P) / 100000) in *. assert (Hh : 0 < h) by (unfold h; lra).
  assert (E : snd (dwP P) = 100000 * h) by (unfold h; field).
  apply Nfun_incr; try exact HV; try (apply dw_featureless; assumption); try nra.
  - assert (B : 0 < INR i * h < snd (dwP P)) by nra. destruct P; simpl in HD; try contradiction; exact B.
  - assert (B : 0 < (INR i + 1) * h < snd (dwP P)) by nra. destruct P; simpl in HD; try contradiction; exact B.
Qed.
Lemma dw_N2phi_eq root W P L e N : double_well P -> phi_end root P L = Ok e ->
  sr_N2phi root W P L N = interp1d (map (fun phi => (Nfun P e phi, phi)) (dw_grid (snd (dwP P)))) N.
Proof.
  intros HD HE. destruct P; simpl in HD; try contradiction; unfold sr_N2phi; rewrite HE; reflexivity.
Qed.
Lemma dw_Nincr_inv P e a b : double_well P -> valid P -> branch P a -> branch P b -> Nfun P e a <= Nfun P e b -> a <= b.
Proof.
  intros HD HV Ha Hb H. destruct (Rle_lt_dec a b) as [|Hlt]; [assumption|].
  pose proof (Nfun_incr P e b a ltac:(destruct P; simpl in *; tauto) HV Hb Ha Hlt). lra.
Qed.
Lemma dw_len P e : (2 <= length (map (fun phi => (Nfun P e phi, phi)) (dw_grid (snd (dwP P)))))%nat.
Proof. rewrite dw_grid_eq, !map_length, seq_length. pose proof Kgrid_Z. lia. Qed.
Lemma grid_in phi0 y : In y (dw_grid phi0) -> exists k, (1 <= k <= S Kgrid)%nat /\ y = INR k * (phi0/100000).
Proof.
  rewrite dw_grid_eq. intros H. apply in_map_iff in H. destruct H as [k [<- Hk]]. apply in_seq in Hk. exists k. split; [lia|reflexivity].
Qed.
Lemma grid_branch P y : double_well P -> valid P -> In y (dw_grid (snd (dwP P))) -> branch P y.
Proof.
  intros HD HV H. apply grid_in in H. destruct H as [k [Hk ->]].
  pose proof (dw_phi0_pos P HD HV) as H0.
  assert (1 <= INR k) by (apply (le_INR 1); lia).
  assert (INR k <= 99999). { replace 99999 with (INR (S Kgrid)) by (rewrite S_INR, Kgrid_INR; ring). apply le_INR; lia. }
  assert (B : 0 < INR k * (snd (dwP P) / 100000) < snd (dwP P)).
  { set (h := snd (dwP P) / 100000). assert (0 < h) by (unfold h; lra).
    assert (E : snd (dwP P) = 100000 * h) by (unfold h; field). rewrite E. nra. }
  destruct P; simpl in HD; try contradiction; exact B.
Qed.
Lemma dw_bounds P phi : double_well P -> valid P -> snd (dwP P) / 100000 <= phi <= snd (dwP P) * (99999/100000) -> branch P phi.
Proof.
  intros HD HV H. pose proof (dw_phi0_pos P HD HV) as H0.
  assert (B : 0 < phi < snd (dwP P)) by lra. destruct P; simpl in HD; try contradiction; exact B.
Qed.
Lemma Nfun_mono_le P e a b : double_well P -> valid P -> branch P a -> branch P b -> a <= b -> Nfun P e a <= Nfun P e b.
Proof.
  intros HD HV Ha Hb [H| ->]; [left|right; reflexivity]. apply Nfun_incr; try assumption. destruct P; simpl in *; tauto.
Qed.
Lemma dw_hd_last P e phi : double_well P -> valid P ->
  snd (dwP P) / 100000 <= phi <= snd (dwP P) * (99999/100000) ->
  let l := map (fun phi => (Nfun P e phi, phi)) (dw_grid (snd (dwP P))) in
  fst (hd (0,0) l) <= Nfun P e phi <= fst (last l (0,0)).
Proof.
  intros HD HV H l. subst l. rewrite dw_grid_eq. rewrite hd_grid by lia. rewrite last_grid. cbn [fst].
  pose proof (dw_phi0_pos P HD HV) as H0.
  assert (E1 : INR 1 * (snd (dwP P) / 100000) = snd (dwP P) / 100000) by (simpl; lra).
  assert (E2 : INR (1 + Kgrid) * (snd (dwP P) / 100000) = snd (dwP P) * (99999/100000)).
  { rewrite plus_INR, Kgrid_INR. simpl. field. }
  rewrite E1, E2. split; apply Nfun_mono_le; try assumption; try lra; apply dw_bounds; try assumption; lra.
Qed.
Lemma dw_N2phi_close root W P L e phi : double_well P -> valid P -> phi_end root P L = Ok e ->
  snd (dwP P) / 100000 <= phi <= snd (dwP P) * (99999/100000) ->
  exists phi', sr_N2phi root W P L (Nfun P e phi) = Ok phi' /\ Rabs (phi' - phi) <= snd (dwP P) / 100000.
Proof.
  intros HD HV HE Hphi. rewrite (dw_N2phi_eq root W P L e _ HD HE).
  pose proof (dw_chain P e HD HV) as HC. pose proof (dw_len P e) as HL.
  pose proof (dw_hd_last P e phi HD HV Hphi) as [Hh Hla]. cbv zeta in *.
  eexists. split; [exact (interp1d_inside _ _ _ HC HL Hh Hla)|].
  destruct (seg_value_bracket _ _ _ HC HL Hh Hla) as (x0 & y0 & x1 & y1 & I0 & I1 & Hx & Hlt & Hy & Es).
  apply in_map_iff in I0. destruct I0 as [y0' [E0 I0]]. injection E0 as <- <-.
  apply in_map_iff in I1. destruct I1 as [y1' [E1 I1]]. injection E1 as <- <-.
  pose proof (seg_between _ _ _ _ _ _ Es Hx Hlt (proj1 Hy)) as Hb.
  pose proof (grid_branch P _ HD HV I0) as B0. pose proof (grid_branch P _ HD HV I1) as B1.
  pose proof (dw_bounds P phi HD HV Hphi) as B.
  pose proof (dw_Nincr_inv P e _ _ HD HV B0 B (proj1 Hx)). pose proof (dw_Nincr_inv P e _ _ HD HV B B1 (proj2 Hx)).
  apply Rabs_le. lra.
Qed.
Lemma dw_N2phi_node root W P L e k : double_well P -> valid P -> phi_end root P L = Ok e ->
  (1 <= k <= 99999)%Z ->
  sr_N2phi root W P L (Nfun P e (IZR k * (snd (dwP P) / 100000))) = Ok (IZR k * (snd (dwP P) / 100000)).
Proof.
  intros HD HV HE Hk. rewrite (dw_N2phi_eq root W P L e _ HD HE).
  pose proof (dw_phi0_pos P HD HV) as H0.
  assert (Hphi : snd (dwP P) / 100000 <= IZR k * (snd (dwP P)/100000) <= snd (dwP P) * (99999/100000)).
  { destruct Hk as [Hk1 Hk2]. apply IZR_le in Hk1, Hk2. set (h := snd (dwP P) / 100000). assert (0 < h) by (unfold h; lra).
    replace (snd (dwP P) * (99999/100000)) with (99999 * h) by (unfold h; field). nra. }
  pose proof (dw_chain P e HD HV) as HC. pose proof (dw_len P e) as HL.
  pose proof (dw_hd_last P e _ HD HV Hphi) as [Hh Hla]. cbv zeta in *.
  rewrite (interp1d_inside _ _ _ HC HL Hh Hla). f_equal. apply (seg_value_node _ _ _ _ HC HL).
  apply in_map_iff. exists (IZR k * (snd (dwP P) / 100000)). split; [reflexivity|].
  rewrite dw_grid_eq. apply in_map_iff. exists (Z.to_nat k). split; [rewrite INR_IZR_INZ, Z2Nat.id by lia; reflexivity|].
  apply in_seq. pose proof Kgrid_Z. lia.
Qed.
Lemma dw_N2phi_outside root W P L e phi : double_well P -> valid P -> phi_end root P L = Ok e -> branch P phi ->
  phi < snd (dwP P) / 100000 \/ snd (dwP P) * (99999/100000) < phi ->
  sr_N2phi root W P L (Nfun P e phi) = Raise ValueError.
Proof.
  intros HD HV HE HB Ho. rewrite (dw_N2phi_eq root W P L e _ HD HE).
  pose proof (dw_chain P e HD HV) as HC. pose proof (dw_len P e) as HL.
  apply (interp1d_outside _ _ _ HC HL). rewrite dw_grid_eq. rewrite hd_grid by lia. rewrite last_grid. cbn [fst].
  pose proof (dw_phi0_pos P HD HV) as H0.
  assert (E1 : INR 1 * (snd (dwP P) / 100000) = snd (dwP P) / 100000) by (simpl; lra).
  assert (E2 : INR (1 + Kgrid) * (snd (dwP P) / 100000) = snd (dwP P) * (99999/100000)).
  { rewrite plus_INR, Kgrid_INR. simpl. field. }
  rewrite E1, E2. destruct Ho as [Ho|Ho]; [left|right]; apply Nfun_incr; try assumption;
  try (apply dw_featureless; assumption); apply dw_bounds; try assumption; lra.
Qed.
