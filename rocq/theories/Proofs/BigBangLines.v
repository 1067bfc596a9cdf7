(** The two dividing lines of bigbang.py. On either line E^2 (without radiation) has the double root
    x = 2c: E^2 = m (x-2c)^2 (x+c) with 4c^3-3c = (1-m)/m. *)
From Coq Require Import Reals Lra Lia Psatz Bool Ratan.
From Verif Require Import Base Model.BigBang Spec.BigBangSpec.
Open Scope R_scope.

Lemma cos_triple t : cos (3 * t) = 4 * cos t ^ 3 - 3 * cos t.
Proof.
  replace (3 * t) with (2 * t + t) by ring. rewrite cos_plus, cos_2a, sin_2a.
  pose proof (sin2_cos2 t) as S. unfold Rsqr in S.
  replace (cos t ^ 3) with (cos t * (cos t * cos t)) by ring.
  replace (sin t * sin t) with (1 - cos t * cos t) by lra.
  replace (2 * sin t * cos t * sin t) with (2 * cos t * (sin t * sin t)) by ring.
  replace (sin t * sin t) with (1 - cos t * cos t) by lra. ring.
Qed.
Lemma cosh_triple t : np_cosh (3 * t) = 4 * np_cosh t ^ 3 - 3 * np_cosh t.
Proof.
  unfold np_cosh. replace (- (3 * t)) with (- t + - t + - t) by ring. replace (3 * t) with (t + t + t) by ring.
  rewrite !exp_plus. assert (P : exp t * exp (- t) = 1) by (rewrite <- exp_plus; replace (t + - t) with 0 by ring; apply exp_0).
  assert (N : exp t <> 0) by (pose proof (exp_pos t); lra).
  replace (exp (- t)) with (/ exp t) by (symmetry; apply exp_Ropp). field. exact N.
Qed.
Lemma cosh_ge_1 t : 1 <= np_cosh t.
Proof.
  unfold np_cosh. rewrite exp_Ropp. pose proof (exp_pos t) as P.
  assert (H : 0 <= (exp t - 1) ^ 2 / exp t) by (apply Rle_mult_inv_pos; [apply pow2_ge_0|exact P]).
  replace ((exp t - 1) ^ 2 / exp t) with (exp t + / exp t - 2) in H by (field; lra). lra.
Qed.
Lemma cosh_arccosh x : 1 <= x -> np_cosh (np_arccosh x) = x.
Proof.
  intros Hx. unfold np_cosh, np_arccosh.
  assert (S : 0 <= x ^ 2 - 1) by nra.
  pose proof (sqrt_pos (x ^ 2 - 1)) as SP. pose proof (sqrt_sqrt _ S) as SS.
  set (s := sqrt (x ^ 2 - 1)) in *. rewrite exp_Ropp, exp_ln by lra.
  replace (/ (x + s)) with (x - s); [field|]. apply Rmult_eq_reg_l with (x + s); [|lra]. rewrite Rinv_r by lra. nra.
Qed.

(** E^2 relative to the line through c *)
Lemma line_form m c l x : m <> 0 -> 4 * c ^ 3 - 3 * c = (1 - m) / m ->
  E2 0 m (1 - m - l) l x = m * (x - 2 * c) ^ 2 * (x + c) - (l - 4 * m * c ^ 3) * (x ^ 2 - 1).
Proof.
  intros Hm E. unfold E2. assert (E' : 1 - m = m * (4 * c ^ 3 - 3 * c)) by (rewrite E; field; exact Hm).
  replace (1 - m - l) with (m * (4 * c ^ 3 - 3 * c) - l) by lra. ring.
Qed.
Lemma line_past m c : 0 < m -> 4 * c ^ 3 - 3 * c = (1 - m) / m -> 1 / 2 < c ->
  forall l, (l <= 4 * m * c ^ 3 -> has_big_bang 0 m (1 - m - l) l) /\ (4 * m * c ^ 3 < l -> bounces 0 m (1 - m - l) l).
Proof.
  intros Hm E Hc l. split.
  - intros L x Hx. rewrite (line_form m c l x); [|lra|exact E].
    assert (0 <= m * (x - 2 * c) ^ 2 * (x + c)).
    { apply Rmult_le_pos; [apply Rmult_le_pos; [lra|apply pow2_ge_0]|lra]. }
    assert (0 <= (4 * m * c ^ 3 - l) * (x ^ 2 - 1)) by (apply Rmult_le_pos; [lra|nra]). lra.
  - intros L. exists (2 * c). split; [lra|]. rewrite (line_form m c l (2 * c)); [|lra|exact E].
    assert (0 < (l - 4 * m * c ^ 3) * ((2 * c) ^ 2 - 1)) by (apply Rmult_lt_0_compat; [lra|nra]).
    replace (m * (2 * c - 2 * c) ^ 2 * (2 * c + c)) with 0 by ring. lra.
Qed.
(** a negative cosmological constant always stops the expansion (without radiation) *)
Lemma neg_lambda m l : 0 <= m -> l < 0 -> recollapses 0 m (1 - m - l) l.
Proof.
  intros Hm Hl. unfold recollapses.
  (* choose x small: |(1-m-l)| x^2 + m x^3 < -l *)
  set (d := 1 + Rabs (1 - m - l) + m).
  assert (Hd : 1 <= d) by (unfold d; pose proof (Rabs_pos (1 - m - l)); lra).
  set (y := (- l) / (d * (1 - l))).
  assert (Y0 : 0 < y) by (unfold y; apply Rdiv_lt_0_compat; [lra|apply Rmult_lt_0_compat; lra]).
  assert (Ed : y * (d * (1 - l)) = - l) by (unfold y; field; lra).
  assert (Y1 : y < 1). { apply Rmult_lt_reg_r with (d * (1 - l)); [apply Rmult_lt_0_compat; lra|]. rewrite Ed. nra. }
  exists y. split; [lra|]. unfold E2.
  assert (A : (1 - m - l) * y ^ 2 <= Rabs (1 - m - l) * y).
  { apply Rle_trans with (Rabs (1 - m - l) * y ^ 2); [apply Rmult_le_compat_r; [apply pow2_ge_0|apply Rle_abs]|].
    apply Rmult_le_compat_l; [apply Rabs_pos|]. nra. }
  assert (B : m * y ^ 3 <= m * y) by (apply Rmult_le_compat_l; [lra|]; assert (y ^ 2 <= 1) by nra; nra).
  assert (D : y * d < - l). { apply Rmult_lt_reg_r with (1 - l); [lra|]. rewrite Rmult_assoc, Ed. nra. }
  unfold d in D. nra.
Qed.
Lemma line_future m c : 0 < m -> 4 * c ^ 3 - 3 * c = (1 - m) / m -> 0 <= c < 1 / 2 ->
  forall l, (4 * m * c ^ 3 <= l -> expands_forever 0 m (1 - m - l) l) /\ (l < 4 * m * c ^ 3 -> recollapses 0 m (1 - m - l) l).
Proof.
  intros Hm E Hc l. split.
  - intros L x Hx. rewrite (line_form m c l x); [|lra|exact E].
    assert (0 <= m * (x - 2 * c) ^ 2 * (x + c)).
    { apply Rmult_le_pos; [apply Rmult_le_pos; [lra|apply pow2_ge_0]|lra]. }
    assert (0 <= (l - 4 * m * c ^ 3) * (1 - x ^ 2)) by (apply Rmult_le_pos; [lra|nra]). lra.
  - intros L. destruct (Rle_lt_or_eq_dec 0 c (proj1 Hc)) as [C0|C0].
    + exists (2 * c). split; [lra|]. rewrite (line_form m c l (2 * c)); [|lra|exact E].
      assert (0 < (4 * m * c ^ 3 - l) * (1 - (2 * c) ^ 2)) by (apply Rmult_lt_0_compat; [lra|nra]).
      replace (m * (2 * c - 2 * c) ^ 2 * (2 * c + c)) with 0 by ring. lra.
    + apply neg_lambda; [lra|]. rewrite <- C0 in L. lra.
Qed.

(** the code's choices of c *)
Lemma nbb_c m : 0 < m -> exists c, no_Big_Bang_line m = Ok (4 * m * c ^ 3) /\ 4 * c ^ 3 - 3 * c = (1 - m) / m /\ 1 / 2 < c.
Proof.
  intros Hm. unfold no_Big_Bang_line. destruct (Req_EM_T m 0) as [?|_]; [lra|]. destruct (Rlt_dec 0 m) as [_|?]; [|lra].
  destruct (Rle_dec m (1/2)) as [L|L]; cbn [andb].
  - exists (np_cosh (np_arccosh ((1 - m) / m) / 3)). split; [reflexivity|].
    split; [|pose proof (cosh_ge_1 (np_arccosh ((1 - m) / m) / 3)); lra].
    rewrite <- cosh_triple. replace (3 * (np_arccosh ((1 - m) / m) / 3)) with (np_arccosh ((1 - m) / m)) by field.
    apply cosh_arccosh. apply Rmult_le_reg_r with m; [lra|]. unfold Rdiv. rewrite Rmult_assoc, Rinv_l by lra. lra.
  - destruct (Rle_dec (1/2) m) as [_|?]; [|lra]. exists (cos (acos ((1 - m) / m) / 3)). split; [reflexivity|].
    assert (B : -1 < (1 - m) / m <= 1).
    { split; apply Rmult_lt_reg_r with m || apply Rmult_le_reg_r with m; try lra; unfold Rdiv; rewrite Rmult_assoc, Rinv_l by lra; lra. }
    split.
    + rewrite <- cos_triple. replace (3 * (acos ((1 - m) / m) / 3)) with (acos ((1 - m) / m)) by field. apply cos_acos; lra.
    + pose proof (acos_bound ((1 - m) / m)) as AB.
      assert (acos ((1 - m) / m) < PI).
      { destruct AB as [_ AB]. destruct AB as [AB|AB]; [exact AB|]. exfalso.
        pose proof (cos_acos ((1 - m) / m) ltac:(lra)) as CA. rewrite AB, cos_PI in CA. lra. }
      rewrite <- cos_PI3. apply cos_decreasing_1; lra.
Qed.
Lemma rec_c m : 1 <= m -> exists c, expand_recollapse_line m = Ok (4 * m * c ^ 3) /\ 4 * c ^ 3 - 3 * c = (1 - m) / m /\ 0 <= c < 1 / 2.
Proof.
  intros Hm. unfold expand_recollapse_line. destruct (Rle_dec 0 m) as [_|?]; [|lra]. destruct (Rlt_dec m 1) as [?|_]; [lra|]. cbn [andb].
  destruct (Rle_dec 1 m) as [_|?]; [|lra]. exists (cos (acos ((1 - m) / m) / 3 + 4 * PI / 3)). split; [reflexivity|].
  assert (B : -1 < (1 - m) / m <= 0).
  { split; apply Rmult_lt_reg_r with m || apply Rmult_le_reg_r with m; try lra; unfold Rdiv; rewrite Rmult_assoc, Rinv_l by lra; lra. }
  assert (CA : cos (acos ((1 - m) / m)) = (1 - m) / m) by (apply cos_acos; lra).
  pose proof (acos_bound ((1 - m) / m)) as AB. set (th := acos ((1 - m) / m)) in *.
  assert (T1 : th < PI). { destruct AB as [_ [AB|AB]]; [exact AB|]. rewrite AB, cos_PI in CA. lra. }
  assert (T0 : PI / 2 <= th).
  { destruct (Rle_dec (PI / 2) th) as [?|G]; [assumption|]. exfalso. assert (0 < cos th) by (apply cos_gt_0; pose proof PI_RGT_0; lra). lra. }
  split.
  - rewrite <- cos_triple. replace (3 * (th / 3 + 4 * PI / 3)) with (th + 2 * INR 2 * PI) by (cbn; field).
    rewrite cos_period. exact CA.
  - (* th/3 + 4 PI/3 = 2 PI - (2PI/3 - th/3); angle u = 2PI/3 - th/3 in (PI/3, PI/2] *)
    replace (th / 3 + 4 * PI / 3) with (- (2 * PI / 3 - th / 3) + 2 * INR 1 * PI) by (cbn; field).
    rewrite cos_period, cos_neg. split.
    + apply cos_ge_0; pose proof PI_RGT_0; lra.
    + rewrite <- cos_PI3. apply cos_decreasing_1; pose proof PI_RGT_0; lra.
Qed.
