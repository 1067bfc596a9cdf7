(** C118/C120 in open universes: with 3 H^2 >= dphi^2/2 + V a field that starts no faster than slow roll in an
    increasing, log-concave potential stays no faster than slow roll as long as (V'/V)^2 <= 6.
    As in SlowRollBound.v, [c] is dt/dx and q = dphi/dt. *)
From Coq Require Import Reals Lra Lia Classical.
From Coquelicot Require Import Coquelicot.
From Verif Require Import Base Model.Potentials Model.SlowRoll Spec.PotentialSpec Spec.SlowRollSpec
  Proofs.BackgroundT Proofs.BackgroundEx Proofs.PotentialEpsAll Proofs.PhiEnd Proofs.SRN Proofs.Bracket Proofs.Unique Proofs.Stability Proofs.SlowRollBound Proofs.Roll.
Open Scope R_scope.

(** a quantity that cannot fall below zero *)
Lemma stays_nonneg (g dg : R -> R) B a b : a <= b -> (forall s, a <= s <= b -> is_derive g s (dg s)) ->
  (forall s, a <= s <= b -> g s <= 0 -> B * g s <= dg s) -> 0 <= g a -> 0 <= g b.
Proof.
  intros L D P G0. destruct (Rle_dec 0 (g b)) as [|X]; [assumption|]. exfalso. apply Rnot_le_lt in X.
  destruct (first_hit (fun u => - g (a + b - u)) a b 0 L) as (s & Hs & Es & AB).
  - intros u Hu. apply (ex_derive_continuous (fun u => - g (a + b - u))). exists (- (-1 * dg (a + b - u))).
    apply (is_derive_opp (fun u => g (a + b - u)) u). apply (is_derive_comp g (fun u => a + b - u)); [apply D; lra|].
    evar_last; [auto_derive; [exact I|reflexivity]|]. toR. ring.
  - cbv beta. replace (a + b - a) with b by ring. lra.
  - cbv beta. replace (a + b - b) with a by ring. lra.
  - cbv beta in Es, AB. set (s0 := a + b - s) in *.
    assert (NP : forall r, s0 <= r <= b -> g r <= 0) by (intros r Hr; pose proof (AB (a + b - r) ltac:(unfold s0 in *; lra)) as Y; replace (a + b - (a + b - r)) with r in Y by ring; lra).
    assert (M : exp (- B * s0) * g s0 <= exp (- B * b) * g b).
    { apply (mono_up (fun u => exp (- B * u) * g u) (fun u => exp (- B * u) * (dg u - B * g u))); [| |unfold s0; lra].
      - intros u Hu. pose proof (D u ltac:(unfold s0 in *; lra)) as Du. evar_last; [auto_derive; [repeat split; exd|reflexivity]|]. undd. toR. ring.
      - intros u Hu. apply Rmult_le_pos; [left; apply exp_pos|]. pose proof (P u ltac:(unfold s0 in *; lra) (NP u Hu)). lra. }
    replace (g s0) with 0 in M by lra. pose proof (exp_pos (- B * b)). nra.
Qed.

Section Flow.
Variables (phi q N H c : R -> R) (V V1 V2 : R -> R) (t0 t1 : R).
Hypothesis FL : forall s, t0 <= s <= t1 ->
  is_derive phi s (c s * q s) /\ is_derive q s (c s * (-3 * H s * q s - V1 (phi s))) /\
  is_derive N s (c s * H s) /\ (q s)^2 / 2 + V (phi s) <= 3 * (H s)^2 /\ 0 < H s /\ 0 < c s /\ continuous c s /\ continuous H s.
Hypothesis UP : forall s, t0 <= s <= t1 -> 0 < V (phi s) /\ 0 < V1 (phi s).

Let lam (s : R) := V1 (phi s) / V (phi s).
Let h (s : R) := sqrt (((q s)^2 / 2 + V (phi s)) / 3).

Lemma ofl_falls t : q t0 <= 0 -> t0 < t <= t1 -> q t < 0.
Proof.
  intros Q0 Ht.
  assert (M : exp (3 * N t) * q t < exp (3 * N t0) * q t0).
  { apply (mono_dn_strict (fun s => exp (3 * N s) * q s) (fun s => - (c s * exp (3 * N s) * V1 (phi s)))); [| |lra].
    - intros s Hs. destruct (FL s ltac:(lra)) as (_ & D2 & D3 & _).
      evar_last; [auto_derive; [repeat split; exd|reflexivity]|]. undd. toR. ring.
    - intros s Hs. destruct (FL s ltac:(lra)) as (_ & _ & _ & _ & _ & C & _). destruct (UP s ltac:(lra)) as [_ U].
      pose proof (exp_pos (3 * N s)) as E. assert (0 < c s * exp (3 * N s) * V1 (phi s)) by (apply Rmult_lt_0_compat; [apply Rmult_lt_0_compat; assumption|assumption]). lra. }
  pose proof (exp_pos (3 * N t)) as E. pose proof (exp_pos (3 * N t0)) as E'.
  assert (exp (3 * N t0) * q t0 <= 0) by nra. nra.
Qed.
Lemma ofl_falls_le t : q t0 <= 0 -> t0 <= t <= t1 -> q t <= 0.
Proof. intros Q0 Ht. destruct (Req_dec t t0) as [->|N0]; [exact Q0|]. left. apply ofl_falls; [exact Q0|lra]. Qed.
Lemma ofl_phi_le t : q t0 <= 0 -> t0 <= t <= t1 -> phi t <= phi t0.
Proof.
  intros Q0 Ht. apply (mono_dn phi (fun s => c s * q s)); [| |lra].
  - intros s Hs. apply (FL s ltac:(lra)).
  - intros s Hs. pose proof (ofl_falls_le s Q0 ltac:(lra)). destruct (FL s ltac:(lra)) as (_ & _ & _ & _ & _ & C & _). nra.
Qed.
Lemma ofl_h s : t0 <= s <= t1 -> 0 < h s /\ 3 * (h s)^2 = (q s)^2 / 2 + V (phi s) /\ h s <= H s.
Proof.
  intros Hs. destruct (UP s Hs) as [U _]. destruct (FL s Hs) as (_ & _ & _ & FR & HP & _). pose proof (pow2_ge_0 (q s)) as QQ.
  assert (P : 0 < ((q s)^2 / 2 + V (phi s)) / 3) by lra. assert (H0 : 0 < h s) by (apply sqrt_lt_R0; exact P).
  assert (H2 : (h s)^2 = ((q s)^2 / 2 + V (phi s)) / 3) by (unfold h; apply pow2_sqrt; lra).
  split; [exact H0|]. split; [lra|]. destruct (Rle_dec (h s) (H s)) as [|X]; [assumption|]. exfalso. assert ((H s)^2 < (h s)^2) by nra. lra.
Qed.
Hypothesis DV : forall s, t0 <= s <= t1 -> is_derive V (phi s) (V1 (phi s)) /\ is_derive V1 (phi s) (V2 (phi s)).
Lemma ofl_dh s : t0 <= s <= t1 -> is_derive h s (c s * (- H s * (q s)^2 / (2 * h s))).
Proof.
  intros Hs. destruct (FL s Hs) as (D1 & D2 & D3 & FR & HP & C & _). destruct (DV s Hs) as [E1 _]. destruct (UP s Hs) as [U _].
  pose proof (pow2_ge_0 (q s)) as Q. destruct (ofl_h s Hs) as (H0 & _ & _).
  unfold h at 1. evar_last; [auto_derive; [repeat split; try exd; unfold Rdiv in *; lra|reflexivity]|]. undd. toR.
  match goal with |- context [sqrt ?x] => replace (sqrt x) with (h s) by (unfold h; f_equal; field) end.
  clearbody h. field. lra.
Qed.
Hypothesis LC : forall s, t0 <= s <= t1 -> V2 (phi s) * V (phi s) <= (V1 (phi s))^2.
Hypothesis L6 : forall s, t0 <= s <= t1 -> lam s ^ 2 <= 6.
Hypothesis START : - h t0 * lam t0 <= q t0 <= 0.
Lemma ofl_lag t : t0 <= t <= t1 -> 0 <= q t + h t * lam t.
Proof.
  intros Ht.
  assert (LD : forall s, t0 <= s <= t1 -> is_derive lam s (c s * q s * ((V2 (phi s) * V (phi s) - (V1 (phi s))^2) / (V (phi s))^2))).
  { intros s Hs. destruct (FL s Hs) as (D1 & _). destruct (DV s Hs) as [E1 E2]. destruct (UP s Hs) as [U1 U2]. unfold lam.
    evar_last; [auto_derive; [repeat split; try exd; lra|reflexivity]|]. undd. toR. field. lra. }
  set (A := fun s => c s * (H s - h s) * (- q s * lam s / (2 * h s))).
  assert (CA : cont_in A t0 t).
  { intros s Hs. destruct (FL s ltac:(lra)) as (_ & D2 & _ & _ & _ & _ & CC & CH). pose proof (ofl_dh s ltac:(lra)) as Dh. pose proof (LD s ltac:(lra)) as Dl. destruct (ofl_h s ltac:(lra)) as (H0 & _).
    unfold A. apply (continuous_mult (fun s => c s * (H s - h s)) (fun s => - q s * lam s / (2 * h s))).
    - apply (continuous_mult c (fun s => H s - h s)); [exact CC|]. apply (continuous_minus H h); [exact CH|]. apply (ex_derive_continuous h). eexists; exact Dh.
    - clearbody lam h. apply (ex_derive_continuous (fun s => - q s * lam s / (2 * h s))). auto_derive. repeat split; try (eexists; eassumption). lra. }
  destruct (bounded A t0 t ltac:(lra) CA) as (B & B0 & HB).
  apply (stays_nonneg (fun s => q s + h s * lam s)
    (fun s => c s * (-3 * H s * q s - V1 (phi s)) + (c s * (- H s * (q s)^2 / (2 * h s)) * lam s + h s * (c s * q s * ((V2 (phi s) * V (phi s) - (V1 (phi s))^2) / (V (phi s))^2)))) B t0 t); [lra| | |].
  - intros s Hs. destruct (FL s ltac:(lra)) as (_ & D2 & _). pose proof (ofl_dh s ltac:(lra)) as Dh. pose proof (LD s ltac:(lra)) as Dl.
    apply (@is_derive_plus R_AbsRing R_NormedModule); [exact D2|]. eapply is_derive_eq; [apply (is_derive_mult h lam s _ _ Dh Dl); intros; apply Rmult_comm|]. unfold plus, mult; simpl. toR. ring.
  - intros s Hs G. destruct (FL s ltac:(lra)) as (_ & _ & _ & _ & HP & C & _). destruct (ofl_h s ltac:(lra)) as (H0 & H2 & HH). destruct (UP s ltac:(lra)) as [U1 U2].
    pose proof (ofl_falls_le s (proj2 START) ltac:(lra)) as Q. pose proof (L6 s ltac:(lra)) as L. pose proof (LC s ltac:(lra)) as LCs. pose proof (HB s ltac:(lra)) as BA.
    assert (X : (V2 (phi s) * V (phi s) - (V1 (phi s))^2) / (V (phi s))^2 <= 0).
    { unfold Rdiv. apply Rmult_le_0_r; [lra|]. left. apply Rinv_0_lt_compat. apply pow_lt. exact U1. }
    assert (LP : 0 < lam s) by (apply Rdiv_lt_0_compat; assumption).
    assert (W : V1 (phi s) = lam s * (3 * (h s)^2 - (q s)^2 / 2)) by (rewrite H2; unfold lam; field; lra).
    set (X2 := (V2 (phi s) * V (phi s) - (V1 (phi s))^2) / (V (phi s))^2) in *. clearbody X2. rewrite W.
    assert (A1 : 0 <= A s). { unfold A. apply Rmult_le_pos; [apply Rmult_le_pos; lra|]. apply Rmult_le_pos; [apply Rmult_le_pos; lra|]. left. apply Rinv_0_lt_compat. lra. }
    rewrite Rabs_right in BA by lra.
    set (g := q s + h s * lam s) in *.
    assert (ID : c s * (-3 * H s * q s - lam s * (3 * (h s)^2 - (q s)^2 / 2)) + (c s * (- H s * (q s)^2 / (2 * h s)) * lam s + h s * (c s * q s * X2))
      = - (3 * c s * h s) * g + A s * g + c s * (H s - h s) * - q s * (3 - (lam s)^2 / 2) + h s * c s * (- q s) * - X2).
    { unfold A, g. clearbody lam h. clear - H0. field. lra. }
    rewrite ID.
    assert (T1 : 0 <= c s * (H s - h s) * - q s * (3 - (lam s)^2 / 2)) by (repeat apply Rmult_le_pos; lra).
    assert (T2 : 0 <= h s * c s * (- q s) * - X2) by (repeat apply Rmult_le_pos; lra).
    assert (T3 : 0 <= - (3 * c s * h s) * g) by (assert (0 <= 3 * c s * h s * - g) by (repeat apply Rmult_le_pos; lra); lra).
    assert (T4 : B * g <= A s * g) by nra. lra.
  - lra.
Qed.
(** N grows at least as fast as the slow-roll count falls *)
Lemma ofl_lower (Sf : R -> R) t : t0 <= t <= t1 ->
  (forall s, t0 <= s <= t1 -> is_derive Sf (phi s) (V (phi s) / V1 (phi s))) ->
  Sf (phi t0) - Sf (phi t) <= N t - N t0.
Proof.
  intros Ht DS.
  assert (M : N t0 + Sf (phi t0) <= N t + Sf (phi t)).
  { apply (mono_up (fun s => N s + Sf (phi s)) (fun s => c s * (V (phi s) / V1 (phi s)) * (q s + H s * lam s))); [| |lra].
    - intros s Hs. destruct (FL s ltac:(lra)) as (D1 & D2 & D3 & FR & HP & C & _). pose proof (DS s ltac:(lra)) as E1.
      destruct (UP s ltac:(lra)) as [U1 U2]. unfold lam.
      evar_last; [auto_derive; [repeat split; exd|reflexivity]|]. undd. toR. field. lra.
    - intros s Hs. destruct (FL s ltac:(lra)) as (_ & _ & _ & _ & HP & C & _). destruct (UP s ltac:(lra)) as [U1 U2].
      pose proof (ofl_lag s ltac:(lra)) as G. destruct (ofl_h s ltac:(lra)) as (_ & _ & HH). assert (LP : 0 < lam s) by (apply Rdiv_lt_0_compat; assumption).
      apply Rmult_le_pos; [|nra]. apply Rmult_le_pos; [lra|]. left. apply Rdiv_lt_0_compat; assumption. }
  lra.
Qed.
(** below the slow-roll bound eps_V < 1 the expansion accelerates *)
Lemma ofl_accel t : t0 <= t <= t1 -> lam t ^ 2 < 2 -> 0 < V (phi t) - (q t)^2.
Proof.
  intros Ht L. destruct (ofl_h t Ht) as (H0 & H2 & _). pose proof (ofl_lag t Ht) as G. pose proof (ofl_falls_le t (proj2 START) Ht) as Q.
  destruct (UP t Ht) as [U1 U2]. assert (LP : 0 < lam t) by (apply Rdiv_lt_0_compat; assumption).
  assert (Q2 : (q t)^2 <= (h t)^2 * (lam t)^2) by nra.
  assert (X : (h t)^2 * (lam t)^2 < (h t)^2 * 2) by (apply Rmult_lt_compat_l; [apply pow_lt; exact H0|exact L]). lra.
Qed.
End Flow.

Section Pot.
Variables (P : pot) (L : R).
Hypotheses (HF : featureless P) (HV : valid P) (HL : L <> 0) (HD : dw_ge1 P).
Variables (phi q N H c : R -> R) (t0 b : R).
Hypothesis FL : forall s, t0 <= s < b ->
  is_derive phi s (c s * q s) /\ is_derive q s (c s * (-3 * H s * q s - dV P L (phi s))) /\
  is_derive N s (c s * H s) /\ (q s)^2 / 2 + V P L (phi s) <= 3 * (H s)^2 /\ 0 < H s /\ 0 < c s /\ continuous c s /\ continuous H s.
Hypothesis B0 : branch P (phi t0).
Hypothesis Q0 : q t0 <= 0.

Lemma oroll_N_le x z : t0 <= x <= z -> z < b -> N x <= N z.
Proof.
  intros Hx Hz. apply (mono_up N (fun s => c s * H s)); [| |lra].
  - intros s Hs. apply (FL s ltac:(lra)).
  - intros s Hs. destruct (FL s ltac:(lra)) as (_ & _ & _ & _ & HP & C & _). nra.
Qed.
Lemma oroll_cont t1 : t1 < b -> cont_in phi t0 t1.
Proof. intros Ht s Hs. apply (ex_derive_continuous phi). exists (c s * q s). apply (FL s ltac:(lra)). Qed.
Lemma oroll_branch t1 : t0 <= t1 < b -> (forall s, t0 <= s <= t1 -> 0 < phi s) ->
  forall s, t0 <= s <= t1 -> phi s <= phi t0 /\ branch P (phi s).
Proof.
  intros Ht POS. destruct (branch_room P HF HV HD _ B0) as (r & Hr & RM).
  assert (LE : forall s, t0 <= s <= t1 -> phi s <= phi t0).
  { apply (boot_fwd phi t0 t1 (phi t0 + r) (phi t0)); [lra|apply oroll_cont; lra|lra|lra|].
    intros d1 Hd Q. assert (BR : forall s, t0 <= s <= d1 -> branch P (phi s)) by (intros s Hs; apply RM; split; [apply POS; lra|apply Q, Hs]).
    apply (ofl_phi_le phi q N H c (V P L) (dV P L) t0 d1); [intros s Hs; apply FL; lra| |exact Q0|lra].
    intros s Hs. apply branch_pos; try assumption. apply BR, Hs. }
  intros s Hs. split; [apply LE, Hs|]. apply RM. pose proof (POS s Hs). pose proof (LE s Hs). lra.
Qed.
Hypothesis START : - sqrt (((q t0)^2 / 2 + V P L (phi t0)) / 3) * (dV P L (phi t0) / V P L (phi t0)) <= q t0.
Section AboveEnd.
Variables (t1 e : R).
Hypotheses (Ht : t0 <= t1 < b) (Be : branch P e) (Ee : eps1V P e = 1) (AB : forall s, t0 <= s <= t1 -> e <= phi s).
Lemma oroll_pos s : t0 <= s <= t1 -> 0 < phi s.
Proof. intros Hs. pose proof (AB s Hs). pose proof (branch_gt0 P e Be). lra. Qed.
Lemma oroll_lam s : t0 <= s <= t1 -> (dV P L (phi s) / V P L (phi s))^2 <= 2.
Proof.
  intros Hs. destruct (oroll_branch t1 Ht oroll_pos s Hs) as [_ Bs]. rewrite (branch_lam2 P L HF HV HL) by exact Bs.
  destruct (Req_dec e (phi s)) as [<-|X]; [lra|]. pose proof (AB s Hs). pose proof (eps1_decr P e (phi s) HF HV HD Be Bs ltac:(lra)). lra.
Qed.
Lemma oroll_accel : e < phi t1 -> 0 < V P L (phi t1) - (q t1)^2.
Proof.
  intros Le. pose proof (oroll_branch t1 Ht oroll_pos) as BR. destruct (BR t1 ltac:(lra)) as [_ B1].
  apply (ofl_accel phi q N H c (V P L) (dV P L) (d2V P L) t0 t1); try lra.
  - intros s Hs. apply FL. lra.
  - intros s Hs. apply branch_pos; try assumption. apply BR, Hs.
  - intros s Hs. apply branch_derivs; try assumption. apply BR, Hs.
  - intros s Hs. apply branch_lc; try assumption. apply BR, Hs.
  - intros s Hs. pose proof (oroll_lam s Hs). lra.
  - rewrite (branch_lam2 P L HF HV HL) by exact B1. pose proof (eps1_decr P e (phi t1) HF HV HD Be B1 Le). lra.
Qed.
Lemma oroll_count : Nfun P e (phi t0) - Nfun P e (phi t1) <= N t1 - N t0.
Proof.
  pose proof (oroll_branch t1 Ht oroll_pos) as BR.
  apply (ofl_lower phi q N H c (V P L) (dV P L) (d2V P L) t0 t1); try lra.
  - intros s Hs. apply FL. lra.
  - intros s Hs. apply branch_pos; try assumption. apply BR, Hs.
  - intros s Hs. apply branch_derivs; try assumption. apply BR, Hs.
  - intros s Hs. apply branch_lc; try assumption. apply BR, Hs.
  - intros s Hs. pose proof (oroll_lam s Hs). lra.
  - intros s Hs. apply Nfun_derive; try assumption. apply BR, Hs.
Qed.
End AboveEnd.
Lemma oroll_lower t1 e : t0 <= t1 < b -> branch P e -> eps1V P e = 1 -> Nfun P e e = 0 -> e <= phi t0 ->
  V P L (phi t1) - (q t1)^2 <= 0 -> Nfun P e (phi t0) <= N t1 - N t0.
Proof.
  intros Ht Be Ee Ne Le END. pose proof (branch_gt0 P e Be) as E0.
  destruct (classic (exists s, t0 <= s <= t1 /\ phi s <= e)) as [(z & Hz & A)|A].
  - destruct (first_hit phi t0 z e ltac:(lra) (oroll_cont z ltac:(lra)) Le A) as (s & Hs & Es & AB).
    pose proof (oroll_count s e ltac:(lra) Be Ee AB) as X. rewrite Es, Ne in X. pose proof (oroll_N_le s t1 ltac:(lra) ltac:(lra)). lra.
  - exfalso. assert (AB : forall s, t0 <= s <= t1 -> e < phi s).
    { intros s Hs. destruct (Rle_dec (phi s) e) as [X|X]; [exfalso; apply A; exists s; split; assumption|lra]. }
    pose proof (oroll_accel t1 e Ht Be Ee ltac:(intros s Hs; pose proof (AB s Hs); lra) (AB t1 ltac:(lra))). lra.
Qed.
End Pot.
