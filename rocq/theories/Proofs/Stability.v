(** Analysis for C117: a bound that reproduces itself holds on the whole interval. *)
From Coq Require Import Reals Lra Lia.
From Coquelicot Require Import Coquelicot.
From Verif Require Import Proofs.BackgroundT Proofs.Unique.
Open Scope R_scope.

Lemma cont_eps (g : R -> R) s e : continuous g s -> 0 < e -> exists dl, 0 < dl /\ forall u, Rabs (u - s) < dl -> Rabs (g u - g s) < e.
Proof.
  intros C He. apply continuity_pt_filterlim in C. destruct (C e He) as (dl & H1 & H2). exists dl. split; [exact H1|].
  intros u Hu. destruct (Req_dec u s) as [->|N]; [rewrite Rminus_diag_eq by reflexivity; rewrite Rabs_R0; exact He|].
  apply H2. split; [split; [exact I|intro; apply N; symmetry; assumption]|exact Hu].
Qed.
Lemma boot_fwd g t0 d r2 G0 : t0 <= d -> cont_in g t0 d -> g t0 <= G0 -> G0 < r2 ->
  (forall d1, t0 <= d1 <= d -> (forall s, t0 <= s <= d1 -> g s <= r2) -> g d1 <= G0) ->
  forall t, t0 <= t <= d -> g t <= G0.
Proof.
  intros L C H0 HG ST. set (E := fun s => t0 <= s <= d /\ forall u, t0 <= u <= s -> g u <= G0).
  assert (E0 : E t0) by (split; [lra|intros u Hu; replace u with t0 by lra; exact H0]).
  destruct (completeness E) as (sg & UB & LUB); [exists d; intros s [Hs _]; lra|exists t0; exact E0|].
  assert (S0 : t0 <= sg) by (apply UB; exact E0). assert (S1 : sg <= d) by (apply LUB; intros s [Hs _]; lra).
  assert (IN : forall u, t0 <= u -> u < sg -> g u <= G0).
  { intros u U0 U1. destruct (Rle_dec (g u) G0) as [|N]; [assumption|]. exfalso.
    assert (UB' : is_upper_bound E u).
    { intros s [Hs Q]. destruct (Rle_dec s u) as [|M]; [assumption|]. exfalso. apply N, Q. lra. }
    specialize (LUB u UB'). lra. }
  assert (AT : g sg <= G0).
  { destruct (Req_dec sg t0) as [->|N]; [exact H0|]. destruct (Rle_dec (g sg) G0) as [|M]; [assumption|]. exfalso.
    destruct (cont_eps g sg (g sg - G0) (C sg ltac:(lra)) ltac:(lra)) as (dl & D0 & D1).
    set (u := Rmax t0 (sg - dl / 2)). assert (t0 <= u < sg /\ Rabs (u - sg) < dl) as [HU HD].
    { unfold u, Rmax. destruct (Rle_dec _ _); split; try lra; rewrite Rabs_left1; lra. }
    pose proof (IN u ltac:(lra) ltac:(lra)). specialize (D1 u HD). apply Rabs_lt_between in D1. lra. }
  assert (ALL : forall u, t0 <= u <= sg -> g u <= G0) by (intros u Hu; destruct (Req_dec u sg) as [->|N]; [exact AT|apply IN; lra]).
  destruct (Req_dec sg d) as [ED|ND]; [intros t Ht; apply ALL; lra|]. exfalso.
  destruct (cont_eps g sg (r2 - G0) (C sg ltac:(lra)) ltac:(lra)) as (dl & D0 & D1).
  set (u := Rmin d (sg + dl / 2)). assert (sg < u <= d /\ u - sg < dl) as [HU HD] by (unfold u, Rmin; destruct (Rle_dec _ _); lra).
  assert (NEAR : forall s, t0 <= s <= u -> g s <= r2).
  { intros s Hs. destruct (Rle_dec s sg) as [|M]; [pose proof (ALL s ltac:(lra)); lra|].
    specialize (D1 s). rewrite Rabs_right in D1 by lra. specialize (D1 ltac:(lra)). apply Rabs_lt_between in D1. lra. }
  assert (EU : E u).
  { split; [lra|]. intros s Hs. destruct (Rle_dec s sg) as [|M]; [apply ALL; lra|]. apply ST; [lra|]. intros v Hv. apply NEAR. lra. }
  pose proof (UB u EU). lra.
Qed.
Lemma cont_neg (g : R -> R) s : continuous g (- s) -> continuous (fun x => g (- x)) s.
Proof. intros C. apply (continuous_comp (fun x => - x) g); [|exact C]. apply (ex_derive_continuous (fun x => - x)). auto_derive. exact I. Qed.
(** forwards and backwards from t0 *)
Lemma boot g c d t0 r2 G0 : c <= t0 <= d -> cont_in g c d -> g t0 <= G0 -> G0 < r2 ->
  (forall c1 d1, c <= c1 -> c1 <= t0 <= d1 -> d1 <= d -> (forall s, c1 <= s <= d1 -> g s <= r2) -> forall t, c1 <= t <= d1 -> g t <= G0) ->
  forall t, c <= t <= d -> g t <= G0.
Proof.
  intros L C H0 HG ST t Ht. destruct (Rle_dec t0 t) as [F|B].
  - apply (boot_fwd g t0 d r2 G0); [lra|intros s Hs; apply C; lra|exact H0|exact HG| |lra].
    intros d1 H1 Q. apply (ST t0 d1); [lra|lra|lra|exact Q|lra].
  - rewrite <- (Ropp_involutive t). apply (boot_fwd (fun x => g (- x)) (- t0) (- c) r2 G0).
    + lra.
    + intros s Hs. apply cont_neg, C. lra.
    + rewrite Ropp_involutive. exact H0.
    + exact HG.
    + intros d1 H1 Q. apply (ST (- d1) t0); [lra|lra|lra| |lra].
      intros s Hs. rewrite <- (Ropp_involutive s). apply Q. lra.
    + lra.
Qed.
Lemma sq_bd x r2 r : 0 <= r -> x ^ 2 <= r2 -> r2 <= r ^ 2 -> Rabs x <= r.
Proof. intros H A B. apply Rabs_le. split; nra. Qed.
