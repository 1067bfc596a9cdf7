(** Analysis for C118-C120: a field that starts no faster than slow roll in an increasing, log-concave
    potential of a flat universe stays no faster than slow roll. The independent variable is arbitrary:
    [c] is dt/dx (1 in cosmic time, 1/H in e-folds), q = dphi/dt. *)
From Coq Require Import Reals Lra Lia.
From Coquelicot Require Import Coquelicot.
From Verif Require Import Proofs.BackgroundT Proofs.Unique Proofs.Stability.
Open Scope R_scope.

Lemma mono_dn (f df : R -> R) x z : (forall s, x <= s <= z -> is_derive f s (df s)) -> (forall s, x <= s <= z -> df s <= 0) -> x <= z -> f z <= f x.
Proof.
  intros D P L. pose proof (mono_up (fun s => - f s) (fun s => - df s) x z) as M.
  assert (- f x <= - f z); [|lra]. apply M; [|intros s Hs; pose proof (P s Hs); lra|exact L].
  intros s Hs. apply is_derive_opp with (f := f). apply D, Hs.
Qed.
Lemma mono_dn_strict (f df : R -> R) x z : (forall s, x <= s <= z -> is_derive f s (df s)) -> (forall s, x <= s <= z -> df s < 0) -> x < z -> f z < f x.
Proof.
  intros D P L. destruct (MVT_gen f x z df) as (c & C1 & C2).
  - intros s Hs. rewrite Rmin_left, Rmax_right in Hs by lra. apply D. lra.
  - intros s Hs. rewrite Rmin_left, Rmax_right in Hs by lra. apply continuity_pt_filterlim.
    apply (ex_derive_continuous f). exists (df s). apply D. lra.
  - rewrite Rmin_left, Rmax_right in C1 by lra. pose proof (P c ltac:(lra)). nra.
Qed.
(** the first time a continuous function comes down to a level *)
Lemma first_hit f a b v : a <= b -> cont_in f a b -> v <= f a -> f b <= v ->
  exists s, a <= s <= b /\ f s = v /\ forall r, a <= r <= s -> v <= f r.
Proof.
  intros L C H0 H1. set (E := fun s => a <= s <= b /\ forall u, a <= u <= s -> v <= f u).
  assert (E0 : E a) by (split; [lra|intros u Hu; replace u with a by lra; exact H0]).
  destruct (completeness E) as (sg & UB & LUB); [exists b; intros s [Hs _]; lra|exists a; exact E0|].
  assert (S0 : a <= sg) by (apply UB; exact E0). assert (S1 : sg <= b) by (apply LUB; intros s [Hs _]; lra).
  assert (IN : forall u, a <= u -> u < sg -> v <= f u).
  { intros u U0 U1. destruct (Rle_dec v (f u)) as [|N]; [assumption|]. exfalso.
    assert (UB' : is_upper_bound E u).
    { intros s [Hs Q]. destruct (Rle_dec s u) as [|M]; [assumption|]. exfalso. apply N, Q. lra. }
    specialize (LUB u UB'). lra. }
  assert (AT : v <= f sg).
  { destruct (Req_dec sg a) as [->|N]; [exact H0|]. destruct (Rle_dec v (f sg)) as [|M]; [assumption|]. exfalso.
    destruct (cont_eps f sg (v - f sg) (C sg ltac:(lra)) ltac:(lra)) as (dl & D0 & D1).
    set (u := Rmax a (sg - dl / 2)). assert (a <= u < sg /\ Rabs (u - sg) < dl) as [HU HD].
    { unfold u, Rmax. destruct (Rle_dec _ _); split; try lra; rewrite Rabs_left1; lra. }
    pose proof (IN u ltac:(lra) ltac:(lra)). specialize (D1 u HD). apply Rabs_lt_between in D1. lra. }
  assert (ALL : forall u, a <= u <= sg -> v <= f u) by (intros u Hu; destruct (Req_dec u sg) as [->|N]; [exact AT|apply IN; lra]).
  exists sg. split; [lra|]. split; [|exact ALL]. destruct (Req_dec (f sg) v) as [|N]; [assumption|]. exfalso.
  assert (sg <> b) by (intros ->; lra).
  destruct (cont_eps f sg (f sg - v) (C sg ltac:(lra)) ltac:(lra)) as (dl & D0 & D1).
  set (u := Rmin b (sg + dl / 2)). assert (sg < u <= b /\ u - sg < dl) as [HU HD] by (unfold u, Rmin; destruct (Rle_dec _ _); lra).
  assert (EU : E u).
  { split; [lra|]. intros s Hs. destruct (Rle_dec s sg) as [|M]; [apply ALL; lra|].
    specialize (D1 s). rewrite Rabs_right in D1 by lra. specialize (D1 ltac:(lra)). apply Rabs_lt_between in D1. lra. }
  pose proof (UB u EU). lra.
Qed.

Section Flow.
Variables (phi q N H c : R -> R) (V V1 V2 : R -> R) (t0 t1 : R).
Hypothesis FL : forall s, t0 <= s <= t1 ->
  is_derive phi s (c s * q s) /\ is_derive q s (c s * (-3 * H s * q s - V1 (phi s))) /\
  is_derive N s (c s * H s) /\ is_derive H s (c s * (- (q s)^2 / 2)) /\
  3 * (H s)^2 = (q s)^2 / 2 + V (phi s) /\ 0 < H s /\ 0 < c s.
Hypothesis DV : forall s, t0 <= s <= t1 -> is_derive V (phi s) (V1 (phi s)) /\ is_derive V1 (phi s) (V2 (phi s)).
(** the potential is positive and increasing along the path *)
Hypothesis UP : forall s, t0 <= s <= t1 -> 0 < V (phi s) /\ 0 < V1 (phi s).

Let lam (s : R) := V1 (phi s) / V (phi s).

Lemma flow_falls t : q t0 <= 0 -> t0 < t <= t1 -> q t < 0.
Proof.
  intros Q0 Ht.
  assert (M : exp (3 * N t) * q t < exp (3 * N t0) * q t0).
  { apply (mono_dn_strict (fun s => exp (3 * N s) * q s) (fun s => - (c s * exp (3 * N s) * V1 (phi s)))); [| |lra].
    - intros s Hs. destruct (FL s ltac:(lra)) as (_ & D2 & D3 & _).
      evar_last; [auto_derive; [repeat split; exd|reflexivity]|]. undd. toR. ring.
    - intros s Hs. destruct (FL s ltac:(lra)) as (_ & _ & _ & _ & _ & _ & C). destruct (UP s ltac:(lra)) as [_ U].
      pose proof (exp_pos (3 * N s)) as E. assert (0 < c s * exp (3 * N s) * V1 (phi s)) by (apply Rmult_lt_0_compat; [apply Rmult_lt_0_compat; assumption|assumption]). lra. }
  pose proof (exp_pos (3 * N t)) as E. pose proof (exp_pos (3 * N t0)) as E'.
  assert (exp (3 * N t0) * q t0 <= 0) by nra. nra.
Qed.
Lemma flow_falls_le t : q t0 <= 0 -> t0 <= t <= t1 -> q t <= 0.
Proof. intros Q0 Ht. destruct (Req_dec t t0) as [->|N0]; [exact Q0|]. left. apply flow_falls; [exact Q0|lra]. Qed.
Lemma flow_phi_le t : q t0 <= 0 -> t0 <= t <= t1 -> phi t <= phi t0.
Proof.
  intros Q0 Ht. apply (mono_dn phi (fun s => c s * q s)); [| |lra].
  - intros s Hs. apply (FL s ltac:(lra)).
  - intros s Hs. pose proof (flow_falls_le s Q0 ltac:(lra)). destruct (FL s ltac:(lra)) as (_ & _ & _ & _ & _ & _ & C). nra.
Qed.
Lemma flow_N_le t : t0 <= t <= t1 -> N t0 <= N t.
Proof.
  intros Ht. apply (mono_up N (fun s => c s * H s)); [| |lra].
  - intros s Hs. apply (FL s ltac:(lra)).
  - intros s Hs. destruct (FL s ltac:(lra)) as (_ & _ & _ & _ & _ & HP & C). nra.
Qed.

(** log-concave along the path *)
Hypothesis LC : forall s, t0 <= s <= t1 -> V2 (phi s) * V (phi s) <= (V1 (phi s))^2.
Hypothesis START : - H t0 * lam t0 <= q t0 <= 0.

Lemma flow_lag t : t0 <= t <= t1 -> 0 <= q t + H t * lam t.
Proof.
  intros Ht.
  assert (M : exp (3 * N t0) * (q t0 + H t0 * lam t0) <= exp (3 * N t) * (q t + H t * lam t)).
  { apply (mono_up (fun s => exp (3 * N s) * (q s + H s * lam s))
      (fun s => exp (3 * N s) * (H s * c s * q s * ((V2 (phi s) * V (phi s) - (V1 (phi s))^2) / (V (phi s))^2)))); [| |lra].
    - intros s Hs. destruct (FL s ltac:(lra)) as (D1 & D2 & D3 & D4 & FR & HP & C). destruct (DV s ltac:(lra)) as [E1 E2].
      destruct (UP s ltac:(lra)) as [U1 U2]. unfold lam.
      evar_last; [auto_derive; [repeat split; try exd; lra|reflexivity]|]. undd. toR.
      set (v := V (phi s)) in *. set (v1 := V1 (phi s)) in *. set (v2 := V2 (phi s)) in *.
      replace (exp (3 * N s)) with (exp (3 * N s)) by reflexivity. set (ee := exp (3 * N s)).
      assert (W : c s * (- q s ^ 2 / 2) = c s * (v - 3 * H s ^ 2)) by (rewrite FR; field).
      rewrite W. clearbody ee v v1 v2. field. lra.
    - intros s Hs. destruct (FL s ltac:(lra)) as (_ & _ & _ & _ & _ & HP & C). pose proof (flow_falls_le s (proj2 START) ltac:(lra)) as Q.
      pose proof (LC s ltac:(lra)) as L. destruct (UP s ltac:(lra)) as [U1 _]. pose proof (exp_pos (3 * N s)) as E.
      apply Rmult_le_pos; [lra|].
      assert (X : (V2 (phi s) * V (phi s) - (V1 (phi s))^2) / (V (phi s))^2 <= 0).
      { unfold Rdiv. apply Rmult_le_0_r; [lra|]. left. apply Rinv_0_lt_compat. apply pow_lt. exact U1. }
      assert (Y : 0 <= H s * c s * - q s) by (repeat apply Rmult_le_pos; lra).
      replace (H s * c s * q s) with (- (H s * c s * - q s)) by ring. nra. }
  pose proof (exp_pos (3 * N t)) as E. pose proof (exp_pos (3 * N t0)) as E'.
  assert (0 <= exp (3 * N t0) * (q t0 + H t0 * lam t0)) by (apply Rmult_le_pos; lra).
  assert (0 <= exp (3 * N t) * (q t + H t * lam t)) by lra. nra.
Qed.

(** N grows at least as fast as the slow-roll count falls *)
Lemma flow_lower (Sf : R -> R) t : t0 <= t <= t1 ->
  (forall s, t0 <= s <= t1 -> is_derive Sf (phi s) (V (phi s) / V1 (phi s))) ->
  Sf (phi t0) - Sf (phi t) <= N t - N t0.
Proof.
  intros Ht DS.
  assert (M : N t0 + Sf (phi t0) <= N t + Sf (phi t)).
  { apply (mono_up (fun s => N s + Sf (phi s)) (fun s => c s * (V (phi s) / V1 (phi s)) * (q s + H s * lam s))); [| |lra].
    - intros s Hs. destruct (FL s ltac:(lra)) as (D1 & D2 & D3 & D4 & FR & HP & C). pose proof (DS s ltac:(lra)) as E1.
      destruct (UP s ltac:(lra)) as [U1 U2]. unfold lam.
      evar_last; [auto_derive; [repeat split; exd|reflexivity]|]. undd. toR. field. lra.
    - intros s Hs. destruct (FL s ltac:(lra)) as (_ & _ & _ & _ & _ & HP & C). destruct (UP s ltac:(lra)) as [U1 U2].
      pose proof (flow_lag s ltac:(lra)). apply Rmult_le_pos; [|assumption]. apply Rmult_le_pos; [lra|]. left. apply Rdiv_lt_0_compat; assumption. }
  lra.
Qed.
(** the rate |dphi/dN| only grows *)
Lemma flow_rate t : t0 <= t <= t1 -> q t / H t <= q t0 / H t0.
Proof.
  intros Ht. apply (mono_dn (fun s => q s / H s) (fun s => - (c s * V (phi s) / (H s)^2 * (q s + H s * lam s)))); [| |lra].
  - intros s Hs. destruct (FL s ltac:(lra)) as (D1 & D2 & D3 & D4 & FR & HP & C). destruct (UP s ltac:(lra)) as [U1 U2]. unfold lam.
    evar_last; [auto_derive; [repeat split; try exd; lra|reflexivity]|]. undd. toR.
    set (v := V (phi s)) in *. set (v1 := V1 (phi s)) in *.
    assert (W : c s * (- q s ^ 2 / 2) = c s * (v - 3 * H s ^ 2)) by (rewrite FR; field).
    rewrite W. clearbody v v1. field. lra.
  - intros s Hs. destruct (FL s ltac:(lra)) as (_ & _ & _ & _ & _ & HP & C). destruct (UP s ltac:(lra)) as [U1 U2].
    pose proof (flow_lag s ltac:(lra)) as G.
    assert (0 <= c s * V (phi s) / (H s)^2) by (left; apply Rdiv_lt_0_compat; [apply Rmult_lt_0_compat; assumption|apply pow_lt; exact HP]).
    assert (0 <= c s * V (phi s) / (H s)^2 * (q s + H s * lam s)) by (apply Rmult_le_pos; assumption). lra.
Qed.
Lemma flow_upper t : t0 <= t <= t1 -> phi t - phi t0 <= q t0 / H t0 * (N t - N t0).
Proof.
  intros Ht. set (v0 := q t0 / H t0).
  assert (M : phi t - v0 * N t <= phi t0 - v0 * N t0).
  { apply (mono_dn (fun s => phi s - v0 * N s) (fun s => c s * (q s - v0 * H s))); [| |lra].
    - intros s Hs. destruct (FL s ltac:(lra)) as (D1 & _ & D3 & _).
      evar_last; [auto_derive; [repeat split; exd|reflexivity]|]. undd. toR. ring.
    - intros s Hs. destruct (FL s ltac:(lra)) as (_ & _ & _ & _ & _ & HP & C). pose proof (flow_rate s ltac:(lra)) as G. fold v0 in G.
      assert (q s <= v0 * H s) by (apply (Rmult_le_compat_r (H s)) in G; [|lra]; replace (q s / H s * H s) with (q s) in G by (field; lra); exact G).
      nra. }
  lra.
Qed.
(** below the slow-roll bound eps_V < 1 the expansion accelerates *)
Lemma flow_accel t : t0 <= t <= t1 -> lam t ^ 2 < 2 -> 0 < V (phi t) - (q t)^2.
Proof.
  intros Ht L. destruct (FL t Ht) as (_ & _ & _ & _ & FR & HP & _). pose proof (flow_lag t Ht) as G. pose proof (flow_falls_le t (proj2 START) Ht) as Q.
  destruct (UP t Ht) as [U1 U2]. assert (LP : 0 < lam t) by (apply Rdiv_lt_0_compat; assumption).
  assert (Q2 : (q t)^2 <= (H t)^2 * (lam t)^2) by nra.
  assert (X : (H t)^2 * (lam t)^2 < (H t)^2 * 2) by (apply Rmult_lt_compat_l; [apply pow_lt; exact HP|exact L]). lra.
Qed.
End Flow.
