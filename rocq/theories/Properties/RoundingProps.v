(** C107-C109: what rounding can and cannot do to the background. *)
From Coq Require Import Reals ZArith List Lra Lia Psatz.
From Flocq Require Import Core.
From Flocq.Prop Require Import Relative Plus_error.
From Verif Require Import Base Model.Equations Model.Background Model.Rounding Spec.RoundingSpec.
Open Scope R_scope.

Local Instance prec53 : Prec_gt_0 53 := eq_refl.
Lemma rn_le x y : x <= y -> rn x <= rn y.
Proof. intros H. unfold rn. apply round_le; [apply FLT_exp_valid; exact prec53|apply valid_rnd_N|exact H]. Qed.
Lemma rn_id x : D x -> rn x = x.
Proof. intros H. unfold rn. apply round_generic; [apply valid_rnd_N|exact H]. Qed.
Lemma rn_D x : D (rn x).
Proof. unfold rn, D. apply generic_format_round; [apply FLT_exp_valid; exact prec53|apply valid_rnd_N]. Qed.
Lemma D0 : D 0. Proof. apply generic_format_0. Qed.
Lemma D_opp x : D x -> D (- x). Proof. apply generic_format_opp. Qed.
Lemma D_bpow e : (-1074 <= e)%Z -> D (bpow radix2 e).
Proof. intros H. apply generic_format_FLT_bpow; [exact prec53|exact H]. Qed.
Lemma rn_0 : rn 0 = 0. Proof. apply rn_id, D0. Qed.
Lemma rn_nonneg x : 0 <= x -> 0 <= rn x. Proof. intros H. rewrite <- rn_0. apply rn_le. exact H. Qed.
Lemma rn_nonpos x : x <= 0 -> rn x <= 0. Proof. intros H. rewrite <- rn_0. apply rn_le. exact H. Qed.
Lemma rn_opp x : rn (- x) = - rn x. Proof. unfold rn. apply round_NE_opp. Qed.
Lemma rn_plus_0 x y : D x -> D y -> rn (x + y) = 0 -> x + y = 0.
Proof.
  intros Hx Hy. unfold rn. apply round_plus_eq_0; try assumption; try apply valid_rnd_N; try (apply FLT_exp_valid; exact prec53).
  apply monotone_exp_not_FTZ; [apply FLT_exp_valid; exact prec53|apply FLT_exp_monotone].
Qed.
Lemma rn_rel x : bpow radix2 (-1022) <= Rabs x -> Rabs (rn x - x) <= u * Rabs x.
Proof.
  intros H. unfold rn. pose proof (relative_error_N_FLT radix2 (-1074) 53 eq_refl (fun x => negb (Z.even x)) x H) as E.
  replace u with (/ 2 * bpow radix2 (- (53) + 1)); [exact E|]. unfold u. change (- (53) + 1)%Z with (-52)%Z. cbn. lra.
Qed.
(** integers with few bits are doubles *)
Lemma D_IZR z : (Z.abs z < 2 ^ 53)%Z -> D (IZR z).
Proof.
  intros H. apply generic_format_FLT. apply FLT_spec with (Float radix2 z 0); cbn [Fnum Fexp].
  - unfold F2R. cbn. ring.
  - exact H.
  - lia.
Qed.

Lemma u_small : 0 < u <= / 1000000000000.
Proof. unfold u. split; lra. Qed.
Lemma tiny_pos : 0 < tiny. Proof. apply bpow_gt_0. Qed.
Lemma tiny_small e x : (-1000 <= e)%Z -> bpow radix2 e <= x -> tiny <= u / 1000000 * x.
Proof.
  intros He H. pose proof (bpow_gt_0 radix2 e) as P.
  assert (A : tiny <= bpow radix2 (-74) * bpow radix2 e) by (rewrite <- bpow_plus; apply bpow_le; lia).
  assert (B : bpow radix2 (-74) = u * / 2 ^ 21) by (unfold u; cbn; lra).
  rewrite B in A. assert (/ 2 ^ 21 * bpow radix2 e <= / 1000000 * x) by nra. pose proof u_small. nra.
Qed.
(** the error of one operation *)
Lemma rn_err x : Rabs (rn x - x) <= u * Rabs x + tiny / 2.
Proof.
  unfold rn. destruct (error_N_FLT radix2 (-1074) 53 eq_refl (fun x => negb (Z.even x)) x) as (e & h & He & Hh & _ & E).
  rewrite E. replace (x * (1 + e) + h - x) with (x * e + h) by ring.
  eapply Rle_trans; [apply Rabs_triang|]. rewrite Rabs_mult.
  assert (U : / 2 * bpow radix2 (- (53) + 1) = u) by (unfold u; change (- (53) + 1)%Z with (-52)%Z; cbn; lra). rewrite U in He.
  unfold tiny. pose proof (Rabs_pos x). nra.
Qed.
(** a faithful square is within one unit in the last place *)
Lemma square_err pow2 x : faithful_square pow2 -> D x -> 0 <= pow2 x /\ D (pow2 x) /\ Rabs (pow2 x - x ^ 2) <= 2 * u * x ^ 2 + tiny.
Proof.
  intros F Dx. destruct (F x Dx) as (DQ & LO & UP). assert (S0 : 0 <= x ^ 2) by nra.
  split; [apply LO; [apply D0|exact S0]|]. split; [exact DQ|].
  set (s := x ^ 2) in *. set (f := FLT_exp (-1074) 53).
  assert (V : Valid_exp f) by (apply FLT_exp_valid; exact prec53).
  destruct (Req_EM_T (round radix2 f Zfloor s) s) as [G|G].
  - assert (DS : D s). { rewrite <- G. unfold D. apply generic_format_round; [exact V|apply valid_rnd_DN]. }
    pose proof (LO s DS ltac:(lra)). pose proof (UP s DS ltac:(lra)). replace (pow2 x - s) with 0 by lra. rewrite Rabs_R0.
    pose proof u_small. pose proof tiny_pos. nra.
  - assert (NG : ~ generic_format radix2 f s) by (intros X; apply G; apply round_generic; [apply valid_rnd_DN|exact X]).
    destruct (round_DN_UP_lt radix2 f s NG) as [L1 L2].
    pose proof (LO _ (generic_format_round radix2 f Zfloor s) ltac:(lra)) as Q1. pose proof (UP _ (generic_format_round radix2 f Zceil s) ltac:(lra)) as Q2.
    rewrite (round_UP_DN_ulp radix2 f s NG) in L2, Q2.
    assert (E : ulp radix2 f s <= 2 * u * s + tiny).
    { destruct (Rlt_dec (Rabs s) (bpow radix2 (-1074 + 53))) as [SM|LG].
      - unfold f. rewrite (ulp_FLT_small radix2 (-1074) 53 s SM). fold tiny. pose proof u_small. nra.
      - assert (LG' : bpow radix2 (-1074 + 53 - 1) <= Rabs s) by (apply Rle_trans with (bpow radix2 (-1074 + 53)); [apply bpow_le; lia|lra]).
        pose proof (ulp_FLT_le radix2 (-1074) 53 s LG') as X. fold f in X. rewrite Rabs_right in X by lra.
        assert (W : bpow radix2 (1 - 53) = 2 * u) by (unfold u; change (1 - 53)%Z with (-52)%Z; cbn; lra). rewrite W in X. pose proof tiny_pos. lra. }
    apply Rabs_le. lra.
Qed.

(** ** C107: the Friedmann equation of a flat universe *)
(** cosmic time: never negative, and accurate to six units of roundoff *)
Lemma abs_bounds x y : Rabs x <= y -> - y <= x <= y. Proof. intros H. apply Rabs_le_inv in H. exact H. Qed.
Lemma flat_sub x e : D x -> rn (x - rn (0 * e)) = x.
Proof. intros H. rewrite Rmult_0_l, rn_0, Rminus_0_r. apply rn_id. exact H. Qed.
Theorem C107_flat_time : forall pow2 fexp N dphi V, faithful_square pow2 -> D dphi -> D V -> 0 <= V ->
  0 <= fT_get_H2 pow2 fexp N dphi V 0 /\
  (bpow radix2 (-1000) <= V ->
     0 < fT_get_H2 pow2 fexp N dphi V 0 /\
     Rabs (fT_get_H2 pow2 fexp N dphi V 0 - T_get_H2 N dphi V 0) <= 6 * u * T_get_H2 N dphi V 0).
Proof.
  intros pow2 fexp N dphi V F Dp DV V0. destruct (square_err pow2 dphi F Dp) as (Q0 & DQ & QE).
  unfold fT_get_H2. rewrite flat_sub by apply rn_D.
  set (q := pow2 dphi) in *. set (s := dphi ^ 2) in *. assert (S0 : 0 <= s) by (unfold s; nra).
  assert (H0 : 0 <= rn (q / 2)) by (apply rn_nonneg; lra).
  assert (A0 : 0 <= rn (rn (q / 2) + V)) by (apply rn_nonneg; lra).
  split; [apply rn_nonneg; lra|]. intros HV.
  assert (E : Rabs (rn (rn (rn (q / 2) + V) / 3) - (s / 2 + V) / 3) <= 6 * u * ((s / 2 + V) / 3)).
  { pose proof (tiny_small _ V (Z.le_refl _) HV) as TS. pose proof tiny_pos as TP. pose proof u_small as [U0 U1].
    assert (VP : 0 < V) by (pose proof (bpow_gt_0 radix2 (-1000)); lra).
    pose proof (abs_bounds _ _ QE) as B0. clear QE.
    pose proof (rn_err (q / 2)) as E1. rewrite (Rabs_right (q / 2)) in E1 by lra. apply abs_bounds in E1. set (h := rn (q / 2)) in *.
    pose proof (rn_err (h + V)) as E2. rewrite (Rabs_right (h + V)) in E2 by lra. apply abs_bounds in E2. set (a := rn (h + V)) in *.
    pose proof (rn_err (a / 3)) as E3. rewrite (Rabs_right (a / 3)) in E3 by lra. apply abs_bounds in E3. set (r := rn (a / 3)) in *.
    assert (US : u * s <= / 1000000000000 * s) by nra. assert (UV : u * V <= / 1000000000000 * V) by nra.
    assert (UT : u * tiny <= / 1000000000000 * tiny) by nra.
    assert (UUS : 0 <= u * u * s <= / 1000000000000 * (u * s)) by nra. assert (UUV : 0 <= u * u * V <= / 1000000000000 * (u * V)) by nra.
    assert (P1 : 0 <= u * s) by nra. assert (P2 : 0 <= u * V) by nra. assert (P3 : 0 <= u * tiny) by nra.
    assert (TS' : tiny <= / 1000000 * (u * V)) by (unfold Rdiv in TS; lra).
    (* q *)
    assert (UQ : u * q <= u * s + 2 * (u * u * s) + u * tiny) by nra.
    (* h *)
    assert (BH : s / 2 - (15001 / 10000 * (u * s) + / 100000 * (u * V)) <= h <= s / 2 + (15001 / 10000 * (u * s) + / 100000 * (u * V))) by lra.
    assert (UH : u * h <= u * (s / 2) + / 10000 * (u * s) + / 10000 * (u * V)).
    { assert (u * h <= u * (s / 2 + (15001 / 10000 * (u * s) + / 100000 * (u * V)))) by (apply Rmult_le_compat_l; lra). lra. }
    (* a *)
    assert (BA : s / 2 + V - (21 / 10 * (u * s) + 11 / 10 * (u * V)) <= a <= s / 2 + V + (21 / 10 * (u * s) + 11 / 10 * (u * V))) by lra.
    assert (UA : u * a <= u * (s / 2) + u * V + / 10000 * (u * s) + / 10000 * (u * V)).
    { assert (u * a <= u * (s / 2 + V + (21 / 10 * (u * s) + 11 / 10 * (u * V)))) by (apply Rmult_le_compat_l; lra). lra. }
    apply Rabs_le. lra. }
  replace (T_get_H2 N dphi V 0) with ((s / 2 + V) / 3) by (unfold T_get_H2; fold s; ring).
  split; [|exact E].
  apply abs_bounds in E. pose proof u_small as [U0 U1]. pose proof (bpow_gt_0 radix2 (-1000)). nra.
Qed.

(** e-folds: never negative while dphi^2 is below its kinematic limit, and accurate to six units of roundoff
    during inflation and shortly after ((dphi/dN)^2 <= 3) *)
Lemma flat_sub6 x e : D x -> rn (x - rn (rn (6 * 0) * e)) = x.
Proof. intros H. rewrite Rmult_0_r, rn_0. apply flat_sub. exact H. Qed.
Lemma D6 : D 6. Proof. apply (D_IZR 6). lia. Qed.
Theorem C107_flat_efolds : forall pow2 fexp N dphi V, faithful_square pow2 -> D dphi -> D V -> 0 <= V -> 
  (dphi ^ 2 <= 6 -> 0 <= fN_get_H2 pow2 fexp N dphi V 0) /\
  (dphi ^ 2 <= 3 -> bpow radix2 (-1000) <= V ->
     0 < fN_get_H2 pow2 fexp N dphi V 0 /\
     Rabs (fN_get_H2 pow2 fexp N dphi V 0 - N_get_H2 N dphi V 0) <= 6 * u * N_get_H2 N dphi V 0).
Proof.
  intros pow2 fexp N dphi V F Dp DV V0. destruct (square_err pow2 dphi F Dp) as (Q0 & DQ & QE).
  unfold fN_get_H2. rewrite flat_sub6 by apply rn_D.
  set (q := pow2 dphi) in *. set (s := dphi ^ 2) in *. assert (S0 : 0 <= s) by (unfold s; nra).
  assert (A0 : 0 <= rn (2 * V)) by (apply rn_nonneg; lra).
  split.
  { intros H6. assert (QQ : q <= 6) by (apply (proj2 (proj2 (F dphi Dp))); [apply D6|exact H6]).
    assert (B0 : 0 <= rn (6 - q)) by (apply rn_nonneg; lra). apply rn_nonneg. unfold Rdiv. apply Rmult_le_pos; [exact A0|].
    destruct (Req_dec (rn (6 - q)) 0) as [Z|NZ]; [rewrite Z, Rinv_0; lra|]. apply Rlt_le, Rinv_0_lt_compat. lra. }
  intros H3 HV.
  pose proof (tiny_small _ V (Z.le_refl _) HV) as TS. pose proof tiny_pos as TP. pose proof u_small as [U0 U1].
  assert (VP : 0 < V) by (pose proof (bpow_gt_0 radix2 (-1000)); lra).
  assert (T1 : tiny <= u / 1000000 * 1).
  { apply (tiny_small (-1000)); [lia|]. change 1 with (bpow radix2 0). apply bpow_le. lia. }
  apply abs_bounds in QE.
  assert (US : 0 <= u * s <= 3 * u) by nra.
  pose proof (rn_err (2 * V)) as E1. rewrite (Rabs_right (2 * V)) in E1 by lra. apply abs_bounds in E1. set (a := rn (2 * V)) in *.
  pose proof (rn_err (6 - q)) as E2. rewrite (Rabs_right (6 - q)) in E2 by lra. apply abs_bounds in E2. set (d := rn (6 - q)) in *.
  set (t := 6 - s). assert (T3 : 3 <= t <= 6) by (unfold t; lra).
  (* d is within 3.0001 u of t *)
  assert (UQ : u * (6 - q) <= u * t + / 1000000 * u).
  { assert (6 - q <= t + 2 * (3 * u) + tiny) by (unfold t; lra). nra. }
  assert (BD : t * (1 - 30002 / 10000 * u) <= d <= t * (1 + 30002 / 10000 * u)).
  { assert (u * 3 <= u * t) by nra. assert (S1 : 2 * (u * s) <= 2 * (u * t)) by (assert (s <= t) by (unfold t; lra); nra). unfold t in *. split; lra. }
  assert (BA : 2 * V * (1 - 10001 / 10000 * u) <= a <= 2 * V * (1 + 10001 / 10000 * u)) by (split; nra).
  assert (DP : 0 < d) by nra.
  assert (X : 2 * V / t * (1 - 45 / 10 * u) <= a / d <= 2 * V / t * (1 + 45 / 10 * u)).
  { assert (VT : 0 < 2 * V / t) by (apply Rdiv_lt_0_compat; lra).
    assert (TE : t * (2 * V / t) = 2 * V) by (field; lra). set (m := 2 * V / t) in *.
    assert (UM : 0 < u * m) by nra. assert (UUM : 0 <= u * u * m <= / 1000000000000 * (u * m)) by nra.
    assert (AE : a / d * d = a) by (field; lra).
    split; apply Rmult_le_reg_r with d; try exact DP; rewrite AE, Rmult_assoc.
    - apply Rle_trans with (2 * V * (1 - 10001 / 10000 * u)); [|lra].
      apply Rle_trans with (m * ((1 - 45 / 10 * u) * (t * (1 + 30002 / 10000 * u)))); [apply Rmult_le_compat_l; [lra|]; apply Rmult_le_compat_l; lra|].
      replace (m * ((1 - 45 / 10 * u) * (t * (1 + 30002 / 10000 * u)))) with ((t * m) * ((1 - 45 / 10 * u) * (1 + 30002 / 10000 * u))) by ring. rewrite TE.
      apply Rmult_le_compat_l; [lra|]. nra.
    - apply Rle_trans with (2 * V * (1 + 10001 / 10000 * u)); [lra|].
      apply Rle_trans with (m * ((1 + 45 / 10 * u) * (t * (1 - 30002 / 10000 * u)))); [|apply Rmult_le_compat_l; [lra|]; apply Rmult_le_compat_l; lra].
      replace (m * ((1 + 45 / 10 * u) * (t * (1 - 30002 / 10000 * u)))) with ((t * m) * ((1 + 45 / 10 * u) * (1 - 30002 / 10000 * u))) by ring. rewrite TE.
      apply Rmult_le_compat_l; [lra|]. nra. }
  assert (VT : 0 < 2 * V / t) by (apply Rdiv_lt_0_compat; lra).
  assert (VB : V / 3 <= 2 * V / t).
  { apply Rmult_le_reg_r with t; [lra|]. replace (2 * V / t * t) with (2 * V) by (field; lra). nra. }
  replace (N_get_H2 N dphi V 0) with (2 * V / t) by (unfold N_get_H2, t, s; f_equal; ring). set (m := 2 * V / t) in *.
  assert (P0 : 0 <= a / d) by (apply Rle_trans with (m * (1 - 45 / 10 * u)); [apply Rmult_le_pos; lra|lra]).
  pose proof (rn_err (a / d)) as E3. rewrite (Rabs_right (a / d)) in E3 by lra. apply abs_bounds in E3. set (r := rn (a / d)) in *.
  assert (UM : 0 < u * m) by (apply Rmult_lt_0_compat; assumption).
  assert (UUM : u * (u * m) <= / 1000000000000 * (u * m)) by (apply Rmult_le_compat_r; lra).
  assert (UR : u * (a / d) <= 10001 / 10000 * (u * m)).
  { apply Rle_trans with (u * (m * (1 + 45 / 10 * u))); [apply Rmult_le_compat_l; lra|]. lra. }
  assert (UVM : u * (V / 3) <= u * m) by (apply Rmult_le_compat_l; lra).
  assert (TM : tiny / 2 <= / 10000 * (u * m)) by (unfold Rdiv in TS; lra).
  assert (UM1 : u * m <= / 1000000000000 * m) by (apply Rmult_le_compat_r; lra).
  split; [lra|]. apply Rabs_le. split; lra.
Qed.

(** ** C108: the equation of state stays between -1 and 1 *)
Lemma w_range a V : 0 <= a -> 0 <= V -> D V -> -1 <= rn (rn (a - V) / rn (a + V)) <= 1 /\ (0 < V -> 0 < rn (a + V)).
Proof.
  intros A0 V0 DV.
  assert (L : rn (a - V) <= rn (a + V)) by (apply rn_le; lra).
  assert (U : - rn (a + V) <= rn (a - V)) by (rewrite <- rn_opp; apply rn_le; lra).
  assert (R0 : 0 <= rn (a + V)) by (apply rn_nonneg; lra).
  split.
  - assert (X : -1 <= rn (a - V) / rn (a + V) <= 1).
    { destruct (Req_dec (rn (a + V)) 0) as [Z|NZ].
      - rewrite Z. unfold Rdiv. rewrite Rinv_0. lra.
      - split; apply Rmult_le_reg_r with (rn (a + V)); try lra; unfold Rdiv; rewrite Rmult_assoc, Rinv_l by exact NZ; lra. }
    assert (D1 : D 1) by (apply (D_IZR 1); lia).
    split; [rewrite <- (rn_id (-1)) by (apply D_opp; exact D1)|rewrite <- (rn_id 1) by exact D1]; apply rn_le; lra.
  - intros VP. apply Rlt_le_trans with (rn V); [rewrite rn_id by exact DV; exact VP|apply rn_le; lra].
Qed.
(** cosmic time, any curvature *)
Theorem C108_w_time : forall pow2 dphi V, faithful_square pow2 -> D dphi -> D V -> 0 < V ->
  -1 <= fT_w pow2 dphi V <= 1 /\ 0 < rn (rn (pow2 dphi / 2) + V).
Proof.
  intros pow2 dphi V F Dp DV VP. destruct (square_err pow2 dphi F Dp) as (Q0 & _). unfold fT_w.
  destruct (w_range (rn (pow2 dphi / 2)) V) as [A B]; [apply rn_nonneg; lra|lra|exact DV|]. split; [exact A|exact (B VP)].
Qed.
(** e-folds: whenever the computed H^2 is not negative (always in the flat case below the kinematic limit: C107) *)
Theorem C108_w_efolds : forall pow2 fexp N dphi V K, faithful_square pow2 -> D dphi -> D V -> 0 < V -> 0 <= fN_get_H2 pow2 fexp N dphi V K ->
  -1 <= fN_w pow2 fexp N dphi V K <= 1.
Proof.
  intros pow2 fexp N dphi V K F Dp DV VP H0. destruct (square_err pow2 dphi F Dp) as (Q0 & _). unfold fN_w.
  apply w_range; [|lra|exact DV]. apply rn_nonneg. assert (0 <= rn (fN_get_H2 pow2 fexp N dphi V K * pow2 dphi)) by (apply rn_nonneg, Rmult_le_pos; assumption). lra.
Qed.

(** ** C109: the criterion for inflation *)
Lemma sub_sign x y : D x -> D y -> (0 < rn (x - y) <-> y < x) /\ (rn (x - y) < 0 <-> x < y) /\ (rn (x - y) = 0 <-> x = y).
Proof.
  intros Dx Dy.
  assert (Z : rn (x - y) = 0 -> x = y) by (intros E; apply (rn_plus_0 x (- y) Dx (D_opp _ Dy)) in E; lra).
  assert (P : y < x -> 0 < rn (x - y)).
  { intros H. assert (0 <= rn (x - y)) by (apply rn_nonneg; lra). destruct (Req_dec (rn (x - y)) 0) as [E|E]; [apply Z in E; lra|lra]. }
  assert (M : x < y -> rn (x - y) < 0).
  { intros H. assert (rn (x - y) <= 0) by (apply rn_nonpos; lra). destruct (Req_dec (rn (x - y)) 0) as [E|E]; [apply Z in E; lra|lra]. }
  assert (O : x = y -> rn (x - y) = 0) by (intros ->; rewrite Rminus_diag_eq by reflexivity; apply rn_0).
  destruct (Rtotal_order x y) as [H|[H|H] ]; repeat split; intros; try lra; try (specialize (M H); lra); try (specialize (P H); lra); try (specialize (O H); lra); auto.
Qed.
(** In cosmic time rounding never gives the criterion the wrong sign: positive only if dphi^2 < V, negative only if
    dphi^2 > V, and zero when they are equal (it may be zero when they differ by less than the spacing of doubles). *)
Theorem C109_time : forall pow2 dphi V, faithful_square pow2 -> D dphi -> D V ->
  (0 < fT_inflating pow2 dphi V -> dphi ^ 2 < V) /\ (fT_inflating pow2 dphi V < 0 -> V < dphi ^ 2) /\
  (dphi ^ 2 = V -> fT_inflating pow2 dphi V = 0) /\
  (fT_inflating pow2 dphi V = 0 <-> pow2 dphi = V).
Proof.
  intros pow2 dphi V F Dp DV. destruct (F dphi Dp) as (DQ & LO & UP). destruct (sub_sign V (pow2 dphi) DV DQ) as (S1 & S2 & S3). unfold fT_inflating.
  split; [|split; [|split] ].
  - intros H. apply S1 in H. destruct (Rlt_dec (dphi ^ 2) V) as [L|G]; [exact L|]. pose proof (LO V DV ltac:(lra)). lra.
  - intros H. apply S2 in H. destruct (Rlt_dec V (dphi ^ 2)) as [L|G]; [exact L|]. pose proof (UP V DV ltac:(lra)). lra.
  - intros E. apply S3. pose proof (LO V DV ltac:(lra)). pose proof (UP V DV ltac:(lra)). lra.
  - rewrite S3. split; auto.
Qed.
(** In e-folds (flat) the sign is right unless (dphi/dN)^2 is within 16 units of roundoff of 2 *)
Theorem C109_efolds : forall pow2 fexp N dphi V, faithful_square pow2 -> D dphi -> D V -> bpow radix2 (-1000) <= V -> dphi ^ 2 <= 3 ->
  (dphi ^ 2 <= 2 - 16 * u -> 0 < fN_inflating pow2 fexp N dphi V 0) /\ (2 + 16 * u <= dphi ^ 2 -> fN_inflating pow2 fexp N dphi V 0 < 0).
Proof.
  intros pow2 fexp N dphi V F Dp DV HV H3. assert (VP : 0 < V) by (pose proof (bpow_gt_0 radix2 (-1000)); lra).
  destruct (C107_flat_efolds pow2 fexp N dphi V F Dp DV ltac:(lra)) as (_ & A). destruct (A H3 HV) as (HP & HE). clear A.
  destruct (square_err pow2 dphi F Dp) as (Q0 & DQ & QE). unfold fN_inflating.
  pose proof (sub_sign V (rn (fN_get_H2 pow2 fexp N dphi V 0 * pow2 dphi)) DV (rn_D _)) as (S1 & S2 & _).
  set (h := fN_get_H2 pow2 fexp N dphi V 0) in *. set (q := pow2 dphi) in *. set (s := dphi ^ 2) in *.
  assert (S0 : 0 <= s) by (unfold s; nra).
  pose proof (tiny_small _ V (Z.le_refl _) HV) as TS. pose proof tiny_pos as TP. pose proof u_small as [U0 U1].
  assert (T1 : tiny <= u / 1000000 * 1).
  { apply (tiny_small (-1000)); [lia|]. change 1 with (bpow radix2 0). apply bpow_le. lia. }
  set (t := 6 - s). assert (T3 : 3 <= t <= 6) by (unfold t; lra).
  replace (N_get_H2 N dphi V 0) with (2 * V / t) in HE by (unfold N_get_H2, t, s; f_equal; ring).
  assert (VT : 0 < 2 * V / t) by (apply Rdiv_lt_0_compat; lra). assert (TE : t * (2 * V / t) = 2 * V) by (field; lra). set (m := 2 * V / t) in *.
  assert (DV' : V = (6 - s) / 2 * m) by (unfold t in TE; lra).
  assert (MV3 : V <= 3 * m) by (rewrite DV'; apply Rmult_le_compat_r; lra).
  apply abs_bounds in HE. apply abs_bounds in QE.
  assert (UM : 0 < u * m) by (apply Rmult_lt_0_compat; assumption).
  assert (UV3 : u * V <= 3 * (u * m)) by (apply Rle_trans with (u * (3 * m)); [apply Rmult_le_compat_l; lra|lra]).
  assert (TM : tiny <= / 100000 * (u * m)) by (unfold Rdiv in TS; lra).
  pose proof (rn_err (h * q)) as ER. assert (HQ : 0 <= h * q) by (apply Rmult_le_pos; lra). rewrite (Rabs_right (h * q)) in ER by lra. apply abs_bounds in ER.
  assert (UU : 0 <= u * u <= / 1000000000000 * u) by (split; [apply Rmult_le_pos; lra|apply Rmult_le_compat_r; lra]).
  assert (UUU : 0 <= u * (u * u) <= / 1000000000000 * u).
  { split; [apply Rmult_le_pos; lra|]. apply Rle_trans with (1 * (u * u)); [apply Rmult_le_compat_r; lra|lra]. }
  split.
  - intros H2. apply S1.
    assert (US : u * s <= 2 * u) by (rewrite (Rmult_comm 2); apply Rmult_le_compat_l; lra).
    assert (QU : q <= 2 - 119 / 10 * u) by lra.
    assert (X : h * q <= m * (1 + 6 * u) * (2 - 119 / 10 * u)) by (apply Rmult_le_compat; lra).
    assert (Y : h * q * (1 + u) <= m * (2 + 3 * u)).
    { apply Rle_trans with (m * (1 + 6 * u) * (2 - 119 / 10 * u) * (1 + u)); [apply Rmult_le_compat_r; lra|].
      rewrite !Rmult_assoc. apply Rmult_le_compat_l; [lra|]. lra. }
    assert (W : m * (2 + 8 * u) <= V) by (rewrite DV', (Rmult_comm ((6 - s) / 2)); apply Rmult_le_compat_l; lra).
    lra.
  - intros H2. apply S2.
    assert (QL : 2 + 11 * u <= q).
    { assert ((2 + 16 * u) * (1 - 2 * u) <= s * (1 - 2 * u)) by (apply Rmult_le_compat_r; lra). lra. }
    assert (X : m * (1 - 6 * u) * (2 + 11 * u) <= h * q).
    { apply Rmult_le_compat; try lra. apply Rmult_le_pos; lra. }
    assert (Y : m * (2 - 4 * u) <= h * q * (1 - u)).
    { apply Rle_trans with (m * (1 - 6 * u) * (2 + 11 * u) * (1 - u)); [|apply Rmult_le_compat_r; lra].
      rewrite !Rmult_assoc. apply Rmult_le_compat_l; [lra|]. lra. }
    assert (W : V <= m * (2 - 8 * u)) by (rewrite DV', (Rmult_comm ((6 - s) / 2)); apply Rmult_le_compat_l; lra).
    lra.
Qed.

(** ** Curvature: cancellation *)
Lemma D_double x : D x -> D (2 * x).
Proof.
  intros H. apply FLT_format_generic in H; [|exact prec53]. destruct H as [f E A B]. apply generic_format_FLT.
  apply FLT_spec with (Float radix2 (Fnum f) (Fexp f + 1)); cbn [Fnum Fexp]; [|exact A|lia].
  rewrite E. unfold F2R. cbn [Fnum Fexp]. rewrite bpow_plus. cbn. ring.
Qed.
(** In e-folds the computed H^2 of a closed universe never has the wrong sign (as a function of the computed
    exp(-2N)): it is positive only if the exact formula is, negative only if the exact formula is. *)
Theorem C107_closed_efolds_sign : forall pow2 fexp N dphi V, faithful_square pow2 -> D dphi -> D V -> dphi ^ 2 < 6 ->
  let e := fexp (rn (-2 * N)) in
  (0 < fN_get_H2 pow2 fexp N dphi V 1 -> 0 < 2 * V - 6 * e) /\ (fN_get_H2 pow2 fexp N dphi V 1 < 0 -> 2 * V - 6 * e < 0).
Proof.
  intros pow2 fexp N dphi V F Dp DV S6 e. unfold fN_get_H2. fold e. rewrite Rmult_1_r, (rn_id 6 D6), (rn_id (2 * V) (D_double _ DV)).
  assert (B0 : 0 <= rn (6 - pow2 dphi)) by (apply rn_nonneg; pose proof (proj2 (proj2 (F dphi Dp)) 6 D6 ltac:(lra)); lra).
  assert (I0 : 0 <= / rn (6 - pow2 dphi)).
  { destruct (Req_dec (rn (6 - pow2 dphi)) 0) as [Z|NZ]; [rewrite Z, Rinv_0; lra|]. apply Rlt_le, Rinv_0_lt_compat. lra. }
  split; intros H.
  - destruct (Rlt_dec 0 (2 * V - 6 * e)) as [L|G]; [exact L|]. exfalso.
    assert (X : 2 * V <= rn (6 * e)) by (rewrite <- (rn_id (2 * V) (D_double _ DV)); apply rn_le; lra).
    assert (Y : rn (2 * V - rn (6 * e)) <= 0) by (apply rn_nonpos; lra).
    assert (Z : rn (2 * V - rn (6 * e)) / rn (6 - pow2 dphi) <= 0) by (unfold Rdiv; nra).
    apply rn_nonpos in Z. lra.
  - destruct (Rlt_dec (2 * V - 6 * e) 0) as [L|G]; [exact L|]. exfalso.
    assert (X : rn (6 * e) <= 2 * V) by (rewrite <- (rn_id (2 * V) (D_double _ DV)); apply rn_le; lra).
    assert (Y : 0 <= rn (2 * V - rn (6 * e))) by (apply rn_nonneg; lra).
    assert (Z : 0 <= rn (2 * V - rn (6 * e)) / rn (6 - pow2 dphi)) by (unfold Rdiv; nra).
    apply rn_nonneg in Z. lra.
Qed.
(** In cosmic time the relative accuracy is lost: a closed universe whose exact H^2 is positive, but whose computed
    H^2 is zero (dphi = 2^-40, V = 3, N = 0), whatever the library's pow (if faithful) and exp (if exact at 0). *)
Lemma rn_absorb : rn (bpow radix2 (-81) + 3) = 3.
Proof.
  unfold rn, round, scaled_mantissa, cexp.
  assert (M : mag radix2 (bpow radix2 (-81) + 3) = 2%Z :> Z).
  { apply mag_unique_pos. assert (0 < bpow radix2 (-81) <= bpow radix2 (-1)) by (split; [apply bpow_gt_0|apply bpow_le; lia]). cbn in *. lra. }
  rewrite M. change (FLT_exp (-1074) 53 2) with (-51)%Z. change (- -51)%Z with 51%Z.
  rewrite (Znearest_imp _ _ (3 * 2 ^ 51)%Z).
  - unfold F2R. cbn [Fnum Fexp]. rewrite mult_IZR. cbn. lra.
  - rewrite mult_IZR, Rmult_plus_distr_r, <- bpow_plus. change (-81 + 51)%Z with (-30)%Z. 
    replace (bpow radix2 (-30) + 3 * bpow radix2 51 - 3 * IZR (2 ^ 51)) with (bpow radix2 (-30)) by (cbn; lra).
    rewrite Rabs_right by (apply Rle_ge, bpow_ge_0). cbn. lra.
Qed.
Theorem C107_closed_time_refuted : forall pow2 fexp, faithful_square pow2 -> fexp 0 = 1 ->
  exists dphi V, D dphi /\ D V /\ 0 < T_get_H2 0 dphi V 1 /\ fT_get_H2 pow2 fexp 0 dphi V 1 = 0.
Proof.
  intros pow2 fexp F E0. exists (bpow radix2 (-40)), 3. assert (Dp : D (bpow radix2 (-40))) by (apply D_bpow; lia).
  assert (D3 : D 3) by (apply (D_IZR 3); lia). assert (D1 : D 1) by (apply (D_IZR 1); lia).
  split; [exact Dp|]. split; [exact D3|].
  assert (SQ : bpow radix2 (-40) ^ 2 = bpow radix2 (-80)) by (rewrite <- Rsqr_pow2; unfold Rsqr; rewrite <- bpow_plus; reflexivity).
  assert (HALF : bpow radix2 (-80) / 2 = bpow radix2 (-81)) by (change (-80)%Z with (-81 + 1)%Z; rewrite bpow_plus; cbn; lra).
  split.
  - unfold T_get_H2. rewrite SQ. replace (-2 * 0) with 0 by ring. rewrite exp_0. pose proof (bpow_gt_0 radix2 (-80)). lra.
  - unfold fT_get_H2. destruct (F _ Dp) as (_ & LO & UP). rewrite SQ in LO, UP.
    assert (D80 : D (bpow radix2 (-80))) by (apply D_bpow; lia).
    assert (Q : pow2 (bpow radix2 (-40)) = bpow radix2 (-80)) by (apply Rle_antisym; [apply UP|apply LO]; try exact D80; apply Rle_refl).
    rewrite Q, HALF, (rn_id (bpow radix2 (-81))) by (apply D_bpow; lia). rewrite rn_absorb.
    rewrite Rmult_0_r, rn_0, E0, Rmult_1_l, (rn_id 1 D1). replace (3 / 3) with 1 by field. rewrite (rn_id 1 D1), Rminus_diag_eq by reflexivity. apply rn_0.
Qed.

(** ** Open universes: nothing cancels, and the accuracy is that of the flat case plus the error of exp *)
Lemma rn_m2 N : D N -> rn (-2 * N) = -2 * N.
Proof. intros H. apply rn_id. replace (-2 * N) with (- (2 * N)) by ring. apply D_opp, D_double, H. Qed.
Theorem C107_open_time : forall pow2 fexp N dphi V, faithful_square pow2 -> accurate_exp fexp -> D N -> D dphi -> D V ->
  bpow radix2 (-1000) <= V ->
  0 < fT_get_H2 pow2 fexp N dphi V (-1) /\
  Rabs (fT_get_H2 pow2 fexp N dphi V (-1) - T_get_H2 N dphi V (-1)) <= 8 * u * T_get_H2 N dphi V (-1).
Proof.
  intros pow2 fexp N dphi V F FE DN Dp DV HV.
  assert (VP : 0 < V) by (pose proof (bpow_gt_0 radix2 (-1000)); lra).
  destruct (C107_flat_time pow2 fexp N dphi V F Dp DV ltac:(lra)) as (_ & A). destruct (A HV) as (HP & HE). clear A.
  unfold fT_get_H2 in *. rewrite flat_sub in HP, HE by apply rn_D. rewrite (rn_m2 N DN).
  set (r := rn (rn (rn (pow2 dphi / 2) + V) / 3)) in *.
  assert (D2N : D (-2 * N)) by (rewrite <- (rn_m2 N DN); apply rn_D).
  destruct (FE _ D2N) as (De & E0 & EE). set (e := fexp (-2 * N)) in *. pose proof (exp_pos (-2 * N)) as EP.
  replace (-1 * e) with (- e) by ring. rewrite rn_opp, (rn_id e De). replace (r - - e) with (r + e) by ring.
  replace (T_get_H2 N dphi V 0) with ((dphi ^ 2 / 2 + V) / 3) in HE by (unfold T_get_H2; ring).
  replace (T_get_H2 N dphi V (-1)) with ((dphi ^ 2 / 2 + V) / 3 + exp (-2 * N)) by (unfold T_get_H2; ring).
  set (E := exp (-2 * N)) in *. assert (S0 : 0 <= dphi ^ 2) by nra. set (s := dphi ^ 2) in *. set (X := (s / 2 + V) / 3) in *.
  assert (XV : V / 3 <= X) by (unfold X; lra).
  pose proof (tiny_small _ V (Z.le_refl _) HV) as TS. pose proof tiny_pos as TP. pose proof u_small as [U0 U1].
  apply abs_bounds in HE. apply abs_bounds in EE.
  pose proof (rn_err (r + e)) as ER. rewrite (Rabs_right (r + e)) in ER by lra. apply abs_bounds in ER.
  assert (UX : u * (V / 3) <= u * X) by (apply Rmult_le_compat_l; lra).
  assert (T : tiny <= / 100000 * (u * X)) by (unfold Rdiv in *; lra).
  assert (UX1 : 0 < u * X <= / 1000000000000 * X) by (split; [apply Rmult_lt_0_compat; lra|apply Rmult_le_compat_r; lra]).
  assert (UE1 : 0 < u * E <= / 1000000000000 * E) by (split; [apply Rmult_lt_0_compat; lra|apply Rmult_le_compat_r; lra]).
  assert (UR : u * (r + e) <= u * (X + E) + / 1000 * (u * X) + / 1000 * (u * E)).
  { apply Rle_trans with (u * (X + E + / 1000 * X + / 1000 * E)); [apply Rmult_le_compat_l; lra|lra]. }
  split; [lra|]. apply Rabs_le. split; lra.
Qed.
Theorem C107_open_efolds : forall pow2 fexp N dphi V, faithful_square pow2 -> accurate_exp fexp -> D N -> D dphi -> D V ->
  bpow radix2 (-1000) <= V -> dphi ^ 2 <= 3 ->
  0 < fN_get_H2 pow2 fexp N dphi V (-1) /\
  Rabs (fN_get_H2 pow2 fexp N dphi V (-1) - N_get_H2 N dphi V (-1)) <= 12 * u * N_get_H2 N dphi V (-1).
Proof.
  intros pow2 fexp N dphi V F FE DN Dp DV HV H3.
  assert (VP : 0 < V) by (pose proof (bpow_gt_0 radix2 (-1000)); lra).
  destruct (square_err pow2 dphi F Dp) as (Q0 & DQ & QE). unfold fN_get_H2. rewrite (rn_m2 N DN).
  assert (D2N : D (-2 * N)) by (rewrite <- (rn_m2 N DN); apply rn_D).
  destruct (FE _ D2N) as (De & E0 & EE). set (e := fexp (-2 * N)) in *. pose proof (exp_pos (-2 * N)) as EP.
  replace (6 * -1) with (- (6)) by ring. rewrite rn_opp, (rn_id 6 D6). replace (- (6) * e) with (- (6 * e)) by ring. rewrite rn_opp.
  rewrite (rn_id (2 * V) (D_double _ DV)). replace (2 * V - - rn (6 * e)) with (2 * V + rn (6 * e)) by ring.
  replace (N_get_H2 N dphi V (-1)) with ((2 * V + 6 * exp (-2 * N)) / (6 - dphi ^ 2)) by (unfold N_get_H2; f_equal; ring).
  set (E := exp (-2 * N)) in *. assert (S0 : 0 <= dphi ^ 2) by nra. set (q := pow2 dphi) in *. set (s := dphi ^ 2) in *.
  pose proof (tiny_small _ V (Z.le_refl _) HV) as TS. pose proof tiny_pos as TP. pose proof u_small as [U0 U1].
  assert (T1 : tiny <= u / 1000000 * 1).
  { apply (tiny_small (-1000)); [lia|]. change 1 with (bpow radix2 0). apply bpow_le. lia. }
  apply abs_bounds in QE. apply abs_bounds in EE.
  assert (US : 0 <= u * s <= 3 * u) by (split; [apply Rmult_le_pos; lra|rewrite (Rmult_comm 3); apply Rmult_le_compat_l; lra]).
  assert (UV : 0 < u * V <= / 1000000000000 * V) by (split; [apply Rmult_lt_0_compat; lra|apply Rmult_le_compat_r; lra]).
  assert (UE : 0 < u * E <= / 1000000000000 * E) by (split; [apply Rmult_lt_0_compat; lra|apply Rmult_le_compat_r; lra]).
  assert (TS' : tiny <= / 1000000 * (u * V)) by (unfold Rdiv in TS; lra).
  pose proof (rn_err (6 * e)) as E1. rewrite (Rabs_right (6 * e)) in E1 by lra. apply abs_bounds in E1. set (g := rn (6 * e)) in *.
  assert (G0 : 0 <= g) by (apply rn_nonneg; lra).
  assert (UE1 : u * e <= u * E + / 1000 * (u * E) + / 1000 * (u * V)).
  { apply Rle_trans with (u * (E + / 1000 * E + / 1000 * V)); [apply Rmult_le_compat_l; lra|lra]. }
  assert (BG : 6 * E - (301 / 10 * (u * E) + / 100 * (u * V)) <= g <= 6 * E + (301 / 10 * (u * E) + / 100 * (u * V))) by (split; lra).
  pose proof (rn_err (2 * V + g)) as E2. rewrite (Rabs_right (2 * V + g)) in E2 by lra. apply abs_bounds in E2. set (a := rn (2 * V + g)) in *.
  set (A := 2 * V + 6 * E). assert (AP : 0 < A) by (unfold A; lra).
  assert (UG : u * g <= 6 * (u * E) + / 1000 * (u * E) + / 1000 * (u * V)).
  { apply Rle_trans with (u * (6 * E + / 1000 * E + / 1000 * V)); [apply Rmult_le_compat_l; lra|lra]. }
  assert (BA : A * (1 - 61 / 10 * u) <= a <= A * (1 + 61 / 10 * u)) by (unfold A; split; lra).
  pose proof (rn_err (6 - q)) as E3. rewrite (Rabs_right (6 - q)) in E3 by lra. apply abs_bounds in E3. set (d := rn (6 - q)) in *.
  set (t := 6 - s). assert (T3 : 3 <= t <= 6) by (unfold t; lra).
  assert (UQ : u * (6 - q) <= u * t + / 1000000 * u).
  { apply Rle_trans with (u * (t + / 1000000)); [apply Rmult_le_compat_l; [lra|unfold t; lra]|lra]. }
  assert (BD : t * (1 - 30002 / 10000 * u) <= d <= t * (1 + 30002 / 10000 * u)).
  { assert (u * 3 <= u * t) by (apply Rmult_le_compat_l; lra). assert (S1 : u * s <= u * t) by (apply Rmult_le_compat_l; [lra|unfold t; lra]). unfold t in *. split; lra. }
  assert (UT : 0 < u * t <= / 1000000000000 * t) by (split; [apply Rmult_lt_0_compat; lra|apply Rmult_le_compat_r; lra]).
  assert (DP : 0 < d) by lra.
  assert (VT : 0 < A / t) by (apply Rdiv_lt_0_compat; lra).
  assert (TE : t * (A / t) = A) by (field; lra). set (m := A / t) in *.
  assert (UU : 0 <= u * u <= / 1000000000000 * u) by (split; [apply Rmult_le_pos; lra|apply Rmult_le_compat_r; lra]).
  assert (X : m * (1 - 105 / 10 * u) <= a / d <= m * (1 + 105 / 10 * u)).
  { assert (AE : a / d * d = a) by (field; lra).
    split; apply Rmult_le_reg_r with d; try exact DP; rewrite AE, Rmult_assoc.
    - apply Rle_trans with (A * (1 - 61 / 10 * u)); [|lra].
      apply Rle_trans with (m * ((1 - 105 / 10 * u) * (t * (1 + 30002 / 10000 * u)))); [apply Rmult_le_compat_l; [lra|]; apply Rmult_le_compat_l; lra|].
      replace (m * ((1 - 105 / 10 * u) * (t * (1 + 30002 / 10000 * u)))) with ((t * m) * ((1 - 105 / 10 * u) * (1 + 30002 / 10000 * u))) by ring. rewrite TE.
      apply Rmult_le_compat_l; [lra|]. lra.
    - apply Rle_trans with (A * (1 + 61 / 10 * u)); [lra|].
      apply Rle_trans with (m * ((1 + 105 / 10 * u) * (t * (1 - 30002 / 10000 * u)))); [|apply Rmult_le_compat_l; [lra|]; apply Rmult_le_compat_l; lra].
      replace (m * ((1 + 105 / 10 * u) * (t * (1 - 30002 / 10000 * u)))) with ((t * m) * ((1 + 105 / 10 * u) * (1 - 30002 / 10000 * u))) by ring. rewrite TE.
      apply Rmult_le_compat_l; [lra|]. lra. }
  assert (UM : 0 < u * m <= / 1000000000000 * m) by (split; [apply Rmult_lt_0_compat; lra|apply Rmult_le_compat_r; lra]).
  assert (UUM : u * (u * m) <= / 1000000000000 * (u * m)) by (apply Rmult_le_compat_r; lra).
  assert (VM : V / 3 <= m).
  { apply Rmult_le_reg_r with t; [lra|]. rewrite (Rmult_comm m), TE. apply Rle_trans with (V / 3 * 6); [apply Rmult_le_compat_l; lra|unfold A; lra]. }
  assert (UVM : u * (V / 3) <= u * m) by (apply Rmult_le_compat_l; lra).
  assert (P0 : 0 <= a / d) by lra.
  pose proof (rn_err (a / d)) as E4. rewrite (Rabs_right (a / d)) in E4 by lra. apply abs_bounds in E4.
  assert (UR : u * (a / d) <= 1001 / 1000 * (u * m)).
  { apply Rle_trans with (u * (m * (1 + 105 / 10 * u))); [apply Rmult_le_compat_l; lra|]. lra. }
  split; [lra|]. apply Rabs_le. split; lra.
Qed.
(** ** Overflow cannot happen: with V and dphi^2 below 2^500 every intermediate result of the flat formula stays far
    below the largest double (so the unbounded format of the model is IEEE arithmetic there) *)
Definition fits (x : R) : Prop := Rabs x <= bpow radix2 1000.
Lemma rn_abs x e : (-1074 <= e)%Z -> Rabs x <= bpow radix2 e -> Rabs (rn x) <= bpow radix2 e.
Proof.
  intros He H. apply abs_bounds in H. assert (DB : D (bpow radix2 e)) by (apply D_bpow; exact He).
  apply Rabs_le. rewrite <- (rn_id (bpow radix2 e) DB) at 2. rewrite <- (rn_id (- bpow radix2 e) (D_opp _ DB)). split; apply rn_le; lra.
Qed.
Theorem C107_no_overflow : forall pow2 dphi V, faithful_square pow2 -> D dphi -> D V -> 0 <= V <= bpow radix2 500 -> dphi ^ 2 <= bpow radix2 500 ->
  fits (pow2 dphi) /\ fits (rn (pow2 dphi / 2)) /\ fits (rn (rn (pow2 dphi / 2) + V)) /\ fits (rn (rn (rn (pow2 dphi / 2) + V) / 3)) /\
  fits (rn (2 * V)) /\ fits (rn (rn (pow2 dphi / 2) - V)) /\ fits (rn (V - pow2 dphi)) /\
  (dphi ^ 2 <= 3 -> fits (rn (6 - pow2 dphi)) /\ fits (rn (rn (2 * V) / rn (6 - pow2 dphi)))).
Proof.
  intros pow2 dphi V F Dp DV HV HS. destruct (F dphi Dp) as (DQ & LO & UP). destruct (square_err pow2 dphi F Dp) as (Q0 & _ & _).
  pose proof (UP _ (D_bpow 500 ltac:(lia)) HS) as Q1. set (q := pow2 dphi) in *. set (B := bpow radix2 500) in *. assert (B0 : 1 <= B) by (change 1 with (bpow radix2 0); apply bpow_le; lia).
  assert (BB : forall k, (0 <= k <= 500)%Z -> bpow radix2 k * B <= bpow radix2 1000) by (intros k Hk; unfold B; rewrite <- bpow_plus; apply bpow_le; lia).
  assert (W : forall x k, (0 <= k <= 500)%Z -> Rabs x <= bpow radix2 k * B -> Rabs (rn x) <= bpow radix2 k * B).
  { intros x k Hk Hx. unfold B in *. rewrite <- bpow_plus in *. apply rn_abs; [lia|exact Hx]. }
  assert (P0 : bpow radix2 0 * B = B) by (cbn; ring). assert (P1 : bpow radix2 1 * B = 2 * B) by (cbn; ring). assert (P3 : bpow radix2 3 * B = 8 * B) by (cbn; ring).
  assert (HN : 0 <= rn (q / 2)) by (apply rn_nonneg; lra).
  assert (H : Rabs (rn (q / 2)) <= bpow radix2 0 * B) by (apply W; [lia|]; rewrite Rabs_right; lra).
  assert (H' : rn (q / 2) <= B) by (apply abs_bounds in H; lra).
  assert (A : Rabs (rn (rn (q / 2) + V)) <= bpow radix2 1 * B) by (apply W; [lia|]; rewrite Rabs_right; lra).
  assert (T : Rabs (rn (2 * V)) <= bpow radix2 1 * B) by (apply W; [lia|]; rewrite Rabs_right; lra).
  unfold fits. apply abs_bounds in A. pose proof (BB 0%Z ltac:(lia)). pose proof (BB 1%Z ltac:(lia)).
  split; [rewrite Rabs_right; lra|]. split; [lra|]. split; [apply Rabs_le; lra|].
  split; [eapply Rle_trans; [apply (W _ 1%Z); [lia|]; apply Rabs_le; lra|lra]|]. split; [lra|].
  split; [eapply Rle_trans; [apply (W _ 1%Z); [lia|]; apply Rabs_le; lra|lra]|].
  split; [eapply Rle_trans; [apply (W _ 1%Z); [lia|]; apply Rabs_le; lra|lra]|].
  intros H3. assert (D3 : D 3) by (apply (D_IZR 3); lia). pose proof (UP 3 D3 H3) as Q3. fold q in Q3.
  assert (R3 : 3 <= rn (6 - q)) by (rewrite <- (rn_id 3 D3); apply rn_le; lra).
  assert (R6 : rn (6 - q) <= 6) by (rewrite <- (rn_id 6 D6) at 2; apply rn_le; lra).
  split; [apply Rabs_le; pose proof (BB 3%Z ltac:(lia)); lra|].
  eapply Rle_trans; [apply (W _ 1%Z); [lia|]|lra]. apply abs_bounds in T.
  assert (I : 0 < / rn (6 - q) <= 1) by (split; [apply Rinv_0_lt_compat; lra|rewrite <- Rinv_1; apply Rinv_le_contravar; lra]).
  unfold Rdiv. rewrite Rabs_mult, (Rabs_right (/ rn (6 - q))) by lra. rewrite <- (Rmult_1_r (bpow radix2 1 * B)). apply Rmult_le_compat; try lra; [apply Rabs_pos|apply Rabs_le; lra].
Qed.

(** ** The hypotheses are met *)
(** the correctly rounded square is faithful *)
Theorem C107_faithful_nonvacuous : faithful_square (fun x => rn (x * x)).
Proof.
  intros x _. replace (x * x) with (x ^ 2) by ring. split; [apply rn_D|].
  split; intros v Dv H; [rewrite <- (rn_id v Dv) at 1|rewrite <- (rn_id v Dv)]; apply rn_le; exact H.
Qed.
(** the correctly rounded exponential is accurate *)
Theorem C107_accurate_nonvacuous : accurate_exp (fun x => rn (exp x)).
Proof.
  intros x _. pose proof (exp_pos x). split; [apply rn_D|]. split; [apply rn_nonneg; lra|].
  eapply Rle_trans; [apply rn_err|]. rewrite (Rabs_right (exp x)) by lra. pose proof tiny_pos. pose proof u_small as [U _].
  assert (0 < u * exp x) by (apply Rmult_lt_0_compat; assumption). lra.
Qed.
(** and on dphi = 1, V = 1 the criterion is met in all three theorems; the computed H^2 of dphi = 2, V = 1 is exactly 1 *)
Lemma Dint z : (Z.abs z < 2 ^ 53)%Z -> D (IZR z) /\ rn (IZR z) = IZR z.
Proof. intros H. pose proof (D_IZR z H) as X. split; [exact X|apply rn_id; exact X]. Qed.
Theorem C107_nonvacuous : let pow2 := fun x => rn (x * x) in
  D 2 /\ D 1 /\ bpow radix2 (-1000) <= 1 /\ fT_get_H2 pow2 exp 0 2 1 0 = 1 /\ T_get_H2 0 2 1 0 = 1.
Proof.
  cbn zeta. split; [apply (D_IZR 2); lia|]. split; [apply (D_IZR 1); lia|].
  split; [change 1 with (bpow radix2 0); apply bpow_le; lia|].
  split; [|unfold T_get_H2; lra].
  unfold fT_get_H2. rewrite flat_sub by apply rn_D. replace (2 * 2) with 4 by ring. rewrite (proj2 (Dint 4 ltac:(lia))).
  replace (4 / 2) with 2 by field. rewrite (proj2 (Dint 2 ltac:(lia))). replace (2 + 1) with 3 by ring. rewrite (proj2 (Dint 3 ltac:(lia))).
  replace (3 / 3) with 1 by field. apply (proj2 (Dint 1 ltac:(lia))).
Qed.
Theorem C108_nonvacuous : let pow2 := fun x => rn (x * x) in fT_w pow2 0 1 = -1 /\ fT_w pow2 2 1 <= 1.
Proof.
  cbn zeta. split.
  - unfold fT_w. rewrite Rmult_0_l, rn_0. replace (0 / 2) with 0 by field. rewrite rn_0, Rplus_0_l, Rminus_0_l, (rn_opp 1), (proj2 (Dint 1 ltac:(lia))).
    replace (- (1) / 1) with (-(1)) by field. rewrite rn_opp, (proj2 (Dint 1 ltac:(lia))). reflexivity.
  - apply (C108_w_time (fun x => rn (x * x)) 2 1 C107_faithful_nonvacuous); [apply (D_IZR 2); lia|apply (D_IZR 1); lia|lra].
Qed.
Theorem C109_nonvacuous : let pow2 := fun x => rn (x * x) in 0 < fN_inflating pow2 exp 0 1 1 0 /\ fT_inflating pow2 2 1 < 0.
Proof.
  cbn zeta. split.
  - apply (C109_efolds (fun x => rn (x * x)) exp 0 1 1 C107_faithful_nonvacuous); try (apply (D_IZR 1); lia); try lra.
    + change 1 with (bpow radix2 0). apply bpow_le. lia.
    + pose proof u_small. lra.
  - unfold fT_inflating. replace (2 * 2) with 4 by ring. rewrite (proj2 (Dint 4 ltac:(lia))). replace (1 - 4) with (-3) by ring. rewrite (proj2 (Dint (-3) ltac:(lia))). lra.
Qed.
