(** Inflation on the branch of a featureless potential of a flat universe ends: bounds for C120. *)
From Coq Require Import Reals List Lra Lia Classical.
From Coquelicot Require Import Coquelicot.
From Verif Require Import Base Model.Potentials Model.SlowRoll Model.Background Spec.PotentialSpec Spec.SlowRollSpec Spec.BackgroundSpec
  Proofs.PotentialEpsAll Proofs.PhiEnd Proofs.SRN Proofs.Bracket Proofs.BackgroundT Proofs.BackgroundEx Proofs.Unique Proofs.Stability Proofs.SlowRollBound Proofs.Roll Proofs.CalibPure.
Open Scope R_scope.

Lemma pw_small p eta : 0 < p -> 0 < eta -> exists d, 0 < d /\ forall x, 0 < x < d -> pypow x p < eta.
Proof.
  intros Hp He. destruct (cont_eps (ppow p) 0 eta (ppow_cont p 0 Hp) He) as (d & Hd & Q). exists d. split; [exact Hd|].
  intros x Hx. specialize (Q x). rewrite Rminus_0_r in Q. rewrite Rabs_right in Q by lra. specialize (Q ltac:(lra)).
  rewrite !ppow_pypow in Q by lra. assert (Z : pypow 0 p = 0).
  { unfold pypow. destruct (Rlt_dec 0 0); [lra|]. destruct (Req_EM_T 0 0); [|lra]. destruct (Req_EM_T p 0); lra. }
  rewrite Z, Rminus_0_r in Q. pose proof (Rle_abs (pypow x p)). lra.
Qed.
(** the potential vanishes at the bottom of the branch *)
Lemma V_small P L eta : featureless P -> valid P -> dw_ge1 P -> L <> 0 -> 0 < eta -> exists d, 0 < d /\ forall x, 0 < x < d -> V P L x < eta.
Proof.
  intros HF HV HD HL He. assert (L4 : 0 < L ^ 4) by (replace (L ^ 4) with ((L * L) ^ 2) by ring; apply pow_lt; nra).
  assert (SM : in_domain P 0 -> exists d, 0 < d /\ forall x, 0 < x < d -> V P L x < eta).
  { intros D. destruct (potfun_smooth P L 0 D) as (D1 & _). cbn [potfun_of pV] in D1.
    assert (CT : continuous (V P L) 0) by (apply (ex_derive_continuous (V P L)); eexists; exact D1).
    destruct (cont_eps (V P L) 0 eta CT He) as (d & Hd & Q).
    exists d. split; [exact Hd|]. intros x Hx. specialize (Q x). rewrite Rminus_0_r in Q. rewrite Rabs_right in Q by lra. specialize (Q ltac:(lra)).
    rewrite (V_at_0 P L HF HV HD) in Q. apply Rabs_lt_between in Q. lra. }
  assert (MO : forall p, 0 < p -> exists d, 0 < d /\ forall x, 0 < x < d -> mono_V p L x < eta).
  { intros p Hp. destruct (pw_small p (eta / L ^ 4) Hp) as (d & Hd & Q); [apply Rdiv_lt_0_compat; assumption|]. exists d. split; [exact Hd|].
    intros x Hx. unfold mono_V. rewrite Rabs_right by lra. specialize (Q x Hx). apply (Rmult_lt_compat_l (L ^ 4)) in Q; [|exact L4].
    replace (L ^ 4 * (eta / L ^ 4)) with eta in Q by (field; lra). exact Q. }
  assert (RG : forall p alpha, 0 < p -> 0 < alpha -> exists d, 0 < d /\ forall x, 0 < x < d -> rg_V p alpha L x < eta).
  { intros p alpha Hp Ha. destruct (pw_small p (eta * alpha / L ^ 4) Hp) as (d & Hd & Q); [apply Rdiv_lt_0_compat; [apply Rmult_lt_0_compat; assumption|assumption]|].
    exists d. split; [exact Hd|]. intros x Hx. unfold rg_V. specialize (Q x Hx). pose proof (pypow_pos x p ltac:(lra)) as X.
    apply Rmult_lt_reg_r with (alpha + pypow x p); [lra|]. replace (L ^ 4 * pypow x p / (alpha + pypow x p) * (alpha + pypow x p)) with (L ^ 4 * pypow x p) by (field; lra).
    apply (Rmult_lt_compat_l (L ^ 4)) in Q; [|exact L4]. replace (L ^ 4 * (eta * alpha / L ^ 4)) with (eta * alpha) in Q by (field; lra). nra. }
  destruct P; simpl in HF, HV; try contradiction; unfold V;
  try (apply MO; lra); try (apply RG; lra).
  - apply SM. exact I.
  - apply SM. exact I.
  - apply SM. simpl. lra.
  - apply SM. simpl. split; [lra|]. left. replace (1 - 0 / phi0) with 1 by (field; lra). lra.
  - apply SM. simpl. split; [lra|]. replace (1 - 0 / phi0) with 1 by (field; lra). lra.
  - apply SM. simpl. split; [lra|]. replace (1 - 0 / phi0) with 1 by (field; lra). lra.
  - assert (S0 : 0 < s_6_a alpha) by (unfold s_6_a; apply sqrt_lt_R0; lra).
    destruct (pw_small (2 * p) (eta / L ^ 4)) as (d & Hd & Q); [lra|apply Rdiv_lt_0_compat; assumption|].
    assert (CT : continuous (fun x => tanh (x / s_6_a alpha)) 0).
    { apply (ex_derive_continuous (fun x => tanh (x / s_6_a alpha))). unfold tanh, sinh, cosh. auto_derive.
      pose proof (exp_pos (0 / s_6_a alpha)). pose proof (exp_pos (- (0 / s_6_a alpha))). lra. }
    destruct (cont_eps _ 0 d CT Hd) as (d' & Hd' & Q'). exists d'. split; [exact Hd'|]. intros x Hx.
    specialize (Q' x). cbv beta in Q'. rewrite Rminus_0_r in Q'. rewrite (Rabs_right x) in Q' by lra. specialize (Q' ltac:(lra)).
    replace (0 / s_6_a alpha) with 0 in Q' by (unfold Rdiv; ring). replace (tanh 0) with 0 in Q' by (unfold tanh; rewrite sinh_0; unfold Rdiv; ring).
    rewrite Rminus_0_r in Q'. pose proof (tm_C_in01 alpha x ltac:(lra) ltac:(lra)) as TC. unfold tm_C in TC. rewrite Rabs_right in Q' by lra.
    specialize (Q (tm_C alpha x)). unfold tm_C in Q. specialize (Q ltac:(lra)).
    unfold tm_V, tm_C. apply (Rmult_lt_compat_l (L ^ 4)) in Q; [|exact L4]. replace (L ^ 4 * (eta / L ^ 4)) with eta in Q by (field; lra). exact Q.
Qed.

Lemma V_incr P L a b : featureless P -> valid P -> L <> 0 -> branch P a -> branch P b -> a <= b -> V P L a <= V P L b.
Proof.
  intros HF HV HL Ba Bb H. apply (mono_up (V P L) (dV P L)); [| |exact H]; intros s Hs.
  - assert (Bs : branch P s) by (apply (branch_between P a b s Ba Bb); rewrite Rmin_left, Rmax_right by lra; exact Hs).
    destruct (potfun_smooth P L s (branch_in_domain P s HF HV Bs)) as (D & _). exact D.
  - assert (Bs : branch P s) by (apply (branch_between P a b s Ba Bb); rewrite Rmin_left, Rmax_right by lra; exact Hs).
    left. apply (branch_pos P L s HF HV HL Bs).
Qed.

(** the first time a continuous function comes down to a level it started above *)
Lemma first_zero f a b v : a <= b -> cont_in f a b -> v < f a -> f b <= v ->
  exists s, a < s <= b /\ f s = v /\ forall r, a <= r < s -> v < f r.
Proof.
  intros L C H0 H1. set (E := fun s => a <= s <= b /\ forall u, a <= u <= s -> v < f u).
  assert (E0 : E a) by (split; [lra|intros u Hu; replace u with a by lra; exact H0]).
  destruct (completeness E) as (sg & UB & LUB); [exists b; intros s [Hs _]; lra|exists a; exact E0|].
  assert (S0 : a <= sg) by (apply UB; exact E0). assert (S1 : sg <= b) by (apply LUB; intros s [Hs _]; lra).
  assert (IN : forall u, a <= u -> u < sg -> v < f u).
  { intros u U0 U1. destruct (Rlt_dec v (f u)) as [|N]; [assumption|]. exfalso.
    assert (UB' : is_upper_bound E u).
    { intros s [Hs Q]. destruct (Rle_dec s u) as [|M]; [assumption|]. exfalso. apply N, Q. lra. }
    specialize (LUB u UB'). lra. }
  assert (LE : f sg <= v).
  { destruct (Rle_dec (f sg) v) as [|M]; [assumption|]. exfalso. assert (sg <> b) by (intros ->; lra).
    destruct (cont_eps f sg (f sg - v) (C sg ltac:(lra)) ltac:(lra)) as (dl & D0 & D1).
    set (u := Rmin b (sg + dl / 2)). assert (sg < u <= b /\ u - sg < dl) as [HU HD] by (unfold u, Rmin; destruct (Rle_dec _ _); lra).
    assert (EU : E u).
    { split; [lra|]. intros s Hs. destruct (Rlt_dec s sg) as [|M2]; [apply IN; lra|].
      specialize (D1 s). rewrite Rabs_right in D1 by lra. specialize (D1 ltac:(lra)). apply Rabs_lt_between in D1. lra. }
    pose proof (UB u EU). lra. }
  assert (NA : a <> sg) by (intros <-; lra).
  assert (GE : v <= f sg).
  { destruct (Rle_dec v (f sg)) as [|M]; [assumption|]. exfalso.
    destruct (cont_eps f sg (v - f sg) (C sg ltac:(lra)) ltac:(lra)) as (dl & D0 & D1).
    set (u := Rmax a (sg - dl / 2)). assert (a <= u < sg /\ Rabs (u - sg) < dl) as [HU HD].
    { unfold u, Rmax. destruct (Rle_dec _ _); split; try lra; rewrite Rabs_left1; lra. }
    pose proof (IN u ltac:(lra) ltac:(lra)). specialize (D1 u HD). apply Rabs_lt_between in D1. lra. }
  exists sg. split; [lra|]. split; [lra|]. intros r Hr. apply IN; lra.
Qed.

Section Pot.
Variables (P : pot) (L : R).
Hypotheses (HF : featureless P) (HV : valid P) (HL : L <> 0) (HD : dw_ge1 P).
Variables (phi q N H c : R -> R) (t0 b : R).
Hypothesis FL : forall s, t0 <= s < b ->
  is_derive phi s (c s * q s) /\ is_derive q s (c s * (-3 * H s * q s - dV P L (phi s))) /\
  is_derive N s (c s * H s) /\ is_derive H s (c s * (- (q s)^2 / 2)) /\
  3 * (H s)^2 = (q s)^2 / 2 + V P L (phi s) /\ 0 < H s /\ 0 < c s.
Hypothesis B0 : branch P (phi t0).
Hypothesis START : - H t0 * (dV P L (phi t0) / V P L (phi t0)) <= q t0 <= 0.
Variable t1 : R.
Hypothesis T1 : t0 <= t1 < b.
Hypothesis INF : forall s, t0 <= s <= t1 -> 0 < V P L (phi s) - (q s)^2.

(** while it inflates |dphi/dN| < sqrt 2 *)
Lemma end_v s : t0 <= s <= t1 -> - sqrt 2 <= q s / H s <= 0.
Proof.
  intros Hs. pose proof (roll_pos P L HF HV HD phi q N H c t0 b FL B0 t1 T1 INF) as POS.
  pose proof (roll_branch P L HF HV HL HD phi q N H c t0 b FL B0 START t1 T1 POS) as BR.
  destruct (FL s ltac:(lra)) as (_ & _ & _ & _ & FR & HP & _).
  assert (Q : q s <= 0).
  { apply (flow_falls_le phi q N H c (V P L) (dV P L) t0 t1); [intros u Hu; apply FL; lra| |apply START|exact Hs].
    intros u Hu. apply branch_pos; try assumption. apply BR, Hu. }
  pose proof (INF s Hs) as I. assert (S2 : sqrt 2 * sqrt 2 = 2) by (apply sqrt_sqrt; lra). assert (S0 : 0 < sqrt 2) by (apply sqrt_lt_R0; lra).
  assert (X : (q s)^2 < 2 * (H s)^2) by lra.
  split.
  - apply Rmult_le_reg_r with (H s); [exact HP|]. replace (q s / H s * H s) with (q s) by (field; lra).
    destruct (Rle_dec (- sqrt 2 * H s) (q s)) as [|M]; [assumption|]. exfalso. apply Rnot_le_lt in M.
    assert (0 <= sqrt 2 * H s) by (apply Rmult_le_pos; lra). assert (sqrt 2 * H s * (sqrt 2 * H s) < (- q s) * (- q s)) by (apply Rmult_le_0_lt_compat; lra).
    replace (sqrt 2 * H s * (sqrt 2 * H s)) with (2 * (H s)^2) in * by (replace (sqrt 2 * H s * (sqrt 2 * H s)) with (sqrt 2 * sqrt 2 * (H s)^2) by ring; rewrite S2; ring). nra.
  - apply Rmult_le_reg_r with (H s); [exact HP|]. replace (q s / H s * H s) with (q s) by (field; lra). lra.
Qed.
(** ... and the potential cannot drop faster than exponentially in N *)
Lemma end_V : V P L (phi t0) * exp (- (1 + 2 * (N t1 - N t0))) <= V P L (phi t1).
Proof.
  pose proof (roll_pos P L HF HV HD phi q N H c t0 b FL B0 t1 T1 INF) as POS.
  pose proof (roll_branch P L HF HV HL HD phi q N H c t0 b FL B0 START t1 T1 POS) as BR.
  assert (S2 : sqrt 2 * sqrt 2 = 2) by (apply sqrt_sqrt; lra). assert (S0 : 0 < sqrt 2) by (apply sqrt_lt_R0; lra).
  assert (LAG : forall s, t0 <= s <= t1 -> 0 <= q s + H s * (dV P L (phi s) / V P L (phi s))).
  { apply (flow_lag phi q N H c (V P L) (dV P L) (d2V P L) t0 t1); try exact START.
    - intros s Hs. apply FL. lra.
    - intros s Hs. apply branch_derivs; try assumption. apply BR, Hs.
    - intros s Hs. apply branch_pos; try assumption. apply BR, Hs.
    - intros s Hs. apply branch_lc; try assumption. apply BR, Hs. }
  assert (MD : q t1 / H t1 - sqrt 2 * ln (V P L (phi t1)) - 2 * sqrt 2 * N t1 <= q t0 / H t0 - sqrt 2 * ln (V P L (phi t0)) - 2 * sqrt 2 * N t0).
  { apply (mono_dn (fun s => q s / H s - sqrt 2 * ln (V P L (phi s)) - 2 * sqrt 2 * N s)
      (fun s => c s * H s * (- (3 - (q s / H s)^2 / 2) * (q s / H s + dV P L (phi s) / V P L (phi s)) - sqrt 2 * (dV P L (phi s) / V P L (phi s)) * (q s / H s) - 2 * sqrt 2))); [| |lra].
    - intros s Hs. destruct (FL s ltac:(lra)) as (D1 & D2 & D3 & D4 & FR & HP & C). destruct (BR s Hs) as [_ Bs]. destruct (branch_pos P L _ HF HV HL Bs) as [U1 U2].
      destruct (branch_derivs P L HF HV (phi s) Bs) as [E1 _].
      evar_last; [auto_derive; [repeat split; try exd; lra|reflexivity]|]. undd. toR.
      set (v := V P L (phi s)) in *. set (v1 := dV P L (phi s)) in *.
      assert (W : v = 3 * (H s)^2 - (q s)^2 / 2) by lra. 
      assert (VN : 3 * (H s)^2 - (q s)^2 / 2 <> 0) by lra.
      clearbody v v1. subst v. field. repeat split; lra.
    - intros s Hs. destruct (FL s ltac:(lra)) as (_ & _ & _ & _ & _ & HP & C). destruct (BR s Hs) as [_ Bs]. destruct (branch_pos P L _ HF HV HL Bs) as [U1 U2].
      pose proof (LAG s Hs) as G. destruct (end_v s Hs) as [V0 V1]. set (v := q s / H s) in *. set (lm := dV P L (phi s) / V P L (phi s)) in *.
      assert (LM : 0 < lm) by (apply Rdiv_lt_0_compat; assumption).
      assert (G' : 0 <= v + lm). { apply Rmult_le_reg_r with (H s); [exact HP|]. unfold v. rewrite Rmult_plus_distr_r. replace (q s / H s * H s) with (q s) by (field; lra). lra. }
      assert (V2 : v^2 <= 2) by nra.
      assert (X1 : 2 * (v + lm) <= (3 - v^2 / 2) * (v + lm)) by (apply Rmult_le_compat_r; lra).
      assert (X2 : - (2 * lm) <= sqrt 2 * lm * v).
      { replace (- (2 * lm)) with (sqrt 2 * lm * - sqrt 2) by (replace (sqrt 2 * lm * - sqrt 2) with (- (sqrt 2 * sqrt 2 * lm)) by ring; rewrite S2; ring).
        apply Rmult_le_compat_l; [apply Rmult_le_pos; lra|exact V0]. }
      assert (CH : 0 < c s * H s) by (apply Rmult_lt_0_compat; assumption).
      assert (X3 : - (3 - v ^ 2 / 2) * (v + lm) - sqrt 2 * lm * v - 2 * sqrt 2 <= 0) by lra. nra. }
  destruct (end_v t1 ltac:(lra)) as [A1 _]. destruct (end_v t0 ltac:(lra)) as [_ A0].
  assert (U0 : 0 < V P L (phi t0)) by (apply branch_pos; assumption).
  destruct (BR t1 ltac:(lra)) as [_ Bs]. assert (U1 : 0 < V P L (phi t1)) by (apply branch_pos; assumption).
  assert (LN : ln (V P L (phi t0)) - (1 + 2 * (N t1 - N t0)) <= ln (V P L (phi t1))).
  { apply Rmult_le_reg_l with (sqrt 2); [exact S0|]. lra. }
  rewrite <- (exp_ln _ U1). rewrite <- (exp_ln (V P L (phi t0)) U0) at 1. rewrite <- exp_plus.
  destruct LN as [LN|LN]; [left; apply exp_increasing; lra|right; f_equal; lra].
Qed.
End Pot.
