(** Analysis for C110: compactness, Lipschitz bounds and Gronwall's lemma on a closed interval. *)
From Coq Require Import Reals Lra Lia.
From Coquelicot Require Import Coquelicot.
From Verif Require Import Proofs.BackgroundT.
Open Scope R_scope.

Definition cont_in (f : R -> R) c d := forall s, c <= s <= d -> continuous f s.
Lemma cont_pt f c d s : cont_in f c d -> c <= s <= d -> continuity_pt f s.
Proof. intros H Hs. apply continuity_pt_filterlim. apply H, Hs. Qed.
Lemma deriv_cont f df c d : (forall s, c <= s <= d -> is_derive f s (df s)) -> cont_in f c d.
Proof. intros H s Hs. apply (ex_derive_continuous f). exists (df s). apply H, Hs. Qed.

Lemma bounded f c d : c <= d -> cont_in f c d -> exists M, 0 <= M /\ forall s, c <= s <= d -> Rabs (f s) <= M.
Proof.
  intros L C. destruct (continuity_ab_maj (fun x => Rabs (f x)) c d L) as (m & Hm & _).
  - intros x Hx. apply (continuity_pt_comp f Rabs); [exact (cont_pt f c d x C Hx)|apply Rcontinuity_abs].
  - exists (Rabs (f m)). split; [apply Rabs_pos|exact Hm].
Qed.
Lemma bounded_below f c d : c <= d -> cont_in f c d -> (forall s, c <= s <= d -> f s <> 0) -> exists m, 0 < m /\ forall s, c <= s <= d -> m <= Rabs (f s).
Proof.
  intros L C P. destruct (continuity_ab_min (fun x => Rabs (f x)) c d L) as (m & Hm & I).
  - intros x Hx. apply (continuity_pt_comp f Rabs); [exact (cont_pt f c d x C Hx)|apply Rcontinuity_abs].
  - exists (Rabs (f m)). split; [apply Rabs_pos_lt, P, I|exact Hm].
Qed.
Lemma ivt f c d v : c <= d -> cont_in f c d -> Rmin (f c) (f d) <= v <= Rmax (f c) (f d) -> exists s, c <= s <= d /\ f s = v.
Proof.
  intros L C HV. set (k := fun x => Rmax c (Rmin d x)).
  assert (CR : forall x, c <= k x <= d) by (intros x; unfold k; split; [apply Rmax_l|apply Rmax_lub; [lra|apply Rmin_l] ]).
  assert (CL : forall x y, Rabs (k x - k y) <= Rabs (x - y)).
  { intros x y. unfold k, Rmax, Rmin. repeat destruct (Rle_dec _ _); unfold Rabs; repeat destruct (Rcase_abs _); lra. }
  assert (Ca : k c = c) by (unfold k, Rmax, Rmin; repeat destruct (Rle_dec _ _); lra).
  assert (Cb : k d = d) by (unfold k, Rmax, Rmin; repeat destruct (Rle_dec _ _); lra).
  destruct (IVT_gen (fun x => f (k x)) c d v) as [r [_ Hz] ].
  - intros x eps Heps. destruct (cont_pt f c d (k x) C (CR x) eps Heps) as [e [He Q] ]. exists e. split; [exact He|].
    intros y [_ Hy]. simpl in *. unfold R_dist in *. destruct (Req_dec (k x) (k y)) as [E|NE].
    + rewrite E, Rminus_diag_eq by reflexivity. rewrite Rabs_R0. exact Heps.
    + apply Q. split; [split; [exact I|exact NE]|]. eapply Rle_lt_trans; [apply CL|exact Hy].
  - rewrite Ca, Cb. exact HV.
  - exists (k r). split; [apply CR|exact Hz].
Qed.
Lemma ivt2 f s t v : cont_in f (Rmin s t) (Rmax s t) -> f s <= v <= f t -> exists r, Rmin s t <= r <= Rmax s t /\ f r = v.
Proof.
  intros C HV. destruct (Rle_dec s t) as [L|G].
  - rewrite Rmin_left, Rmax_right in * by lra. apply ivt; try assumption. rewrite Rmin_left, Rmax_right by lra. exact HV.
  - rewrite Rmin_right, Rmax_left in * by lra. apply ivt; try assumption; [lra|]. rewrite Rmin_right, Rmax_left by lra. exact HV.
Qed.
(** the values of two functions that meet fill an interval *)
Lemma range f g c d t0 : c <= t0 <= d -> cont_in f c d -> cont_in g c d -> f t0 = g t0 ->
  exists m M, m <= M /\ (forall s, c <= s <= d -> m <= f s <= M /\ m <= g s <= M) /\
    forall x, m <= x <= M -> exists s, c <= s <= d /\ (f s = x \/ g s = x).
Proof.
  intros HT Cf Cg E. assert (L : c <= d) by lra.
  destruct (continuity_ab_min f c d L) as (a1 & A1 & I1); [intros; eapply cont_pt; eassumption|].
  destruct (continuity_ab_min g c d L) as (a2 & A2 & I2); [intros; eapply cont_pt; eassumption|].
  destruct (continuity_ab_maj f c d L) as (b1 & B1 & J1); [intros; eapply cont_pt; eassumption|].
  destruct (continuity_ab_maj g c d L) as (b2 & B2 & J2); [intros; eapply cont_pt; eassumption|].
  assert (sub : forall h s t, cont_in h c d -> c <= s <= d -> c <= t <= d -> cont_in h (Rmin s t) (Rmax s t)).
  { intros h s t C Hs Ht x Hx. apply C. unfold Rmin, Rmax in Hx. destruct (Rle_dec s t); lra. }
  assert (in_cd : forall s t r, c <= s <= d -> c <= t <= d -> Rmin s t <= r <= Rmax s t -> c <= r <= d) by (intros s t r Hs Ht; unfold Rmin, Rmax; destruct (Rle_dec s t); lra).
  exists (Rmin (f a1) (g a2)), (Rmax (f b1) (g b2)).
  pose proof (Rmin_l (f a1) (g a2)). pose proof (Rmin_r (f a1) (g a2)). pose proof (Rmax_l (f b1) (g b2)). pose proof (Rmax_r (f b1) (g b2)).
  pose proof (A1 t0 HT). pose proof (B1 t0 HT). split; [lra|]. split.
  { intros s Hs. pose proof (A1 s Hs). pose proof (A2 s Hs). pose proof (B1 s Hs). pose proof (B2 s Hs). lra. }
  intros x Hx. destruct (Rle_dec x (f t0)) as [X|X].
  - unfold Rmin in Hx. destruct (Rle_dec (f a1) (g a2)).
    + destruct (ivt2 f a1 t0 x) as (w & Hr & Er); [apply sub; assumption|lra|]. exists w. split; [exact (in_cd _ _ _ I1 HT Hr)|left; exact Er].
    + destruct (ivt2 g a2 t0 x) as (w & Hr & Er); [apply sub; assumption|lra|]. exists w. split; [exact (in_cd _ _ _ I2 HT Hr)|right; exact Er].
  - unfold Rmax in Hx. destruct (Rle_dec (f b1) (g b2)).
    + destruct (ivt2 g t0 b2 x) as (w & Hr & Er); [apply sub; assumption|lra|]. exists w. split; [exact (in_cd _ _ _ HT J2 Hr)|right; exact Er].
    + destruct (ivt2 f t0 b1 x) as (w & Hr & Er); [apply sub; assumption|lra|]. exists w. split; [exact (in_cd _ _ _ HT J1 Hr)|left; exact Er].
Qed.
(** a bounded derivative gives a Lipschitz constant *)
Lemma lipschitz f df m M L : (forall x, m <= x <= M -> is_derive f x (df x)) -> (forall x, m <= x <= M -> Rabs (df x) <= L) ->
  forall x z, m <= x <= M -> m <= z <= M -> Rabs (f x - f z) <= L * Rabs (x - z).
Proof.
  intros D B x z Hx Hz. destruct (MVT_gen f z x df) as (c & C1 & C2).
  - intros s Hs. apply D. unfold Rmin, Rmax in Hs. destruct (Rle_dec z x); lra.
  - intros s Hs. apply continuity_pt_filterlim. apply (ex_derive_continuous f). exists (df s). apply D. unfold Rmin, Rmax in Hs. destruct (Rle_dec z x); lra.
  - rewrite C2, Rabs_mult. apply Rmult_le_compat_r; [apply Rabs_pos|]. apply B. unfold Rmin, Rmax in C1. destruct (Rle_dec z x); lra.
Qed.

(** ** Gronwall *)
Lemma mono_up (f df : R -> R) x z : (forall s, x <= s <= z -> is_derive f s (df s)) -> (forall s, x <= s <= z -> 0 <= df s) -> x <= z -> f x <= f z.
Proof.
  intros D P L. destruct (Req_dec x z) as [->|N]; [lra|].
  destruct (MVT_gen f x z df) as (c & C1 & C2).
  - intros s Hs. rewrite Rmin_left, Rmax_right in Hs by lra. apply D. lra.
  - intros s Hs. rewrite Rmin_left, Rmax_right in Hs by lra. apply continuity_pt_filterlim.
    apply (ex_derive_continuous f). exists (df s). apply D. lra.
  - rewrite Rmin_left, Rmax_right in C1 by lra. pose proof (P c ltac:(lra)). nra.
Qed.
(** growth at most exponential in both directions *)
Lemma gronwall g dg c d C t0 : c <= t0 <= d -> (forall s, c <= s <= d -> is_derive g s (dg s)) ->
  (forall s, c <= s <= d -> Rabs (dg s) <= C * g s) -> forall t, c <= t <= d -> g t <= g t0 * exp (C * Rabs (t - t0)).
Proof.
  intros HT D B t Ht.
  assert (X : forall k s, is_derive (fun x => exp (k * x)) s (k * exp (k * s))) by (intros; auto_derive; [exact I|ring]).
  destruct (Rle_dec t0 t) as [L|G].
  - rewrite Rabs_right by lra.
    pose proof (mono_up (fun s => - (g s * exp (- C * s))) (fun s => (C * g s - dg s) * exp (- C * s)) t0 t) as M.
    assert (Q : - (g t0 * exp (- C * t0)) <= - (g t * exp (- C * t))).
    { apply M; [| |exact L].
      - intros s Hs. assert (Dg := D s ltac:(lra)). evar_last; [auto_derive; [exists (dg s); exact Dg|reflexivity]|]. undd. simpl. ring.
      - intros s Hs. apply Rmult_le_pos; [|left; apply exp_pos]. pose proof (B s ltac:(lra)) as BS. apply Rabs_le_between in BS. lra. }
    assert (g t * exp (- C * t) * exp (C * t) <= g t0 * exp (- C * t0) * exp (C * t)) by (apply Rmult_le_compat_r; [left; apply exp_pos|lra]).
    rewrite !Rmult_assoc, <- !exp_plus in H. replace (- C * t + C * t) with 0 in H by ring. rewrite exp_0, Rmult_1_r in H. eapply Rle_trans; [exact H|]. right. f_equal. f_equal. ring.
  - rewrite Rabs_left by lra.
    pose proof (mono_up (fun s => g s * exp (C * s)) (fun s => (C * g s + dg s) * exp (C * s)) t t0) as M.
    assert (Q : g t * exp (C * t) <= g t0 * exp (C * t0)).
    { apply M; [| |lra].
      - intros s Hs. assert (Dg := D s ltac:(lra)). evar_last; [auto_derive; [exists (dg s); exact Dg|reflexivity]|]. undd. simpl. ring.
      - intros s Hs. apply Rmult_le_pos; [|left; apply exp_pos]. pose proof (B s ltac:(lra)) as BS. apply Rabs_le_between in BS. lra. }
    assert (g t * exp (C * t) * exp (- C * t) <= g t0 * exp (C * t0) * exp (- C * t)) by (apply Rmult_le_compat_r; [left; apply exp_pos|lra]).
    rewrite !Rmult_assoc, <- !exp_plus in H. replace (C * t + - C * t) with 0 in H by ring. rewrite exp_0, Rmult_1_r in H. eapply Rle_trans; [exact H|]. right. f_equal. f_equal. ring.
Qed.
(** three differences driving each other linearly *)
Lemma stays_zero3 x y z dx dy dz c d C t0 : c <= t0 <= d ->
  (forall s, c <= s <= d -> is_derive x s (dx s) /\ is_derive y s (dy s) /\ is_derive z s (dz s)) -> 0 <= C ->
  (forall s, c <= s <= d -> let n := Rabs (x s) + Rabs (y s) + Rabs (z s) in Rabs (dx s) <= C * n /\ Rabs (dy s) <= C * n /\ Rabs (dz s) <= C * n) ->
  forall t, c <= t <= d -> x t ^ 2 + y t ^ 2 + z t ^ 2 <= (x t0 ^ 2 + y t0 ^ 2 + z t0 ^ 2) * exp (6 * C * Rabs (t - t0)).
Proof.
  intros HT D C0 B t Ht.
  apply (gronwall (fun s => x s ^ 2 + y s ^ 2 + z s ^ 2) (fun s => 2 * x s * dx s + 2 * y s * dy s + 2 * z s * dz s) c d (6 * C) t0 HT); [| |exact Ht].
  - intros s Hs. destruct (D s Hs) as (D1 & D2 & D3).
    evar_last; [auto_derive; [repeat split; eexists; eassumption|reflexivity]|].
    undd. simpl. ring.
  - intros s Hs. destruct (B s Hs) as (B1 & B2 & B3). set (n := Rabs (x s) + Rabs (y s) + Rabs (z s)) in *.
    pose proof (Rabs_pos (x s)). pose proof (Rabs_pos (y s)). pose proof (Rabs_pos (z s)).
    assert (T : Rabs (2 * x s * dx s + 2 * y s * dy s + 2 * z s * dz s) <= 2 * Rabs (x s) * (C * n) + 2 * Rabs (y s) * (C * n) + 2 * Rabs (z s) * (C * n)).
    { eapply Rle_trans; [apply Rabs_triang|]. apply Rplus_le_compat; [eapply Rle_trans; [apply Rabs_triang|]; apply Rplus_le_compat|];
      rewrite !Rabs_mult, (Rabs_right 2) by lra; apply Rmult_le_compat_l; lra. }
    eapply Rle_trans; [exact T|]. rewrite <- (pow2_abs (x s)), <- (pow2_abs (y s)), <- (pow2_abs (z s)).
    replace (2 * Rabs (x s) * (C * n) + 2 * Rabs (y s) * (C * n) + 2 * Rabs (z s) * (C * n)) with (C * (2 * n ^ 2)) by (unfold n; ring).
    rewrite (Rmult_comm 6 C), Rmult_assoc. apply Rmult_le_compat_l; [exact C0|]. unfold n.
    generalize (Rabs (x s)) (Rabs (y s)) (Rabs (z s)). intros u v w. pose proof (pow2_ge_0 (u - v)). pose proof (pow2_ge_0 (u - w)). pose proof (pow2_ge_0 (v - w)). lra.
Qed.
Lemma const_zero f c d t0 : c <= t0 <= d -> (forall s, c <= s <= d -> is_derive f s 0) -> forall t, c <= t <= d -> f t = f t0.
Proof.
  intros HT D t Ht. destruct (MVT_gen f t0 t (fun _ => 0)) as (r & _ & E).
  - intros s Hs. apply D. unfold Rmin, Rmax in Hs. destruct (Rle_dec t0 t); lra.
  - intros s Hs. apply continuity_pt_filterlim. apply (ex_derive_continuous f). exists 0. apply D. unfold Rmin, Rmax in Hs. destruct (Rle_dec t0 t); lra.
  - lra.
Qed.

(** ** Bookkeeping of bounds *)
Definition bd (x X : R) : Prop := Rabs x <= X.
Lemma bd_nonneg x X : bd x X -> 0 <= X. Proof. intros H. eapply Rle_trans; [apply Rabs_pos|exact H]. Qed.
Lemma bd_plus x y X Y : bd x X -> bd y Y -> bd (x + y) (X + Y).
Proof. intros A B. eapply Rle_trans; [apply Rabs_triang|]. apply Rplus_le_compat; assumption. Qed.
Lemma bd_opp x X : bd x X -> bd (- x) X. Proof. unfold bd. rewrite Rabs_Ropp. auto. Qed.
Lemma bd_minus x y X Y : bd x X -> bd y Y -> bd (x - y) (X + Y).
Proof. intros A B. apply bd_plus; [exact A|apply bd_opp, B]. Qed.
Lemma bd_mult x y X Y : bd x X -> bd y Y -> bd (x * y) (X * Y).
Proof. intros A B. unfold bd. rewrite Rabs_mult. apply Rmult_le_compat; try apply Rabs_pos; assumption. Qed.
Lemma bd_inv x h : 0 < h -> h <= Rabs x -> bd (/ x) (/ h).
Proof. intros H L. unfold bd. rewrite Rabs_inv. apply Rinv_le_contravar; assumption. Qed.
Lemma bd_div x y X h : bd x X -> 0 < h -> h <= Rabs y -> bd (x / y) (X * / h).
Proof. intros A H L. apply bd_mult; [exact A|apply bd_inv; assumption]. Qed.
Lemma bd_refl x : bd x (Rabs x). Proof. apply Rle_refl. Qed.
Lemma bd_le x X Y : bd x X -> X <= Y -> bd x Y. Proof. unfold bd. lra. Qed.
(** a linear combination with bounded coefficients *)
Lemma bd_lin3 a b c x y z A B C : bd a A -> bd b B -> bd c C -> Rabs (a * x + b * y + c * z) <= (A + B + C) * (Rabs x + Rabs y + Rabs z).
Proof.
  intros HA HB HC. pose proof (bd_nonneg _ _ HA). pose proof (bd_nonneg _ _ HB). pose proof (bd_nonneg _ _ HC).
  pose proof (Rabs_pos x). pose proof (Rabs_pos y). pose proof (Rabs_pos z).
  eapply Rle_trans; [apply bd_plus; [apply bd_plus|]; apply bd_mult; try eassumption; apply bd_refl|]. nra.
Qed.
(** difference quotients *)
Lemma slope f df m M L : (forall x, m <= x <= M -> is_derive f x (df x)) -> (forall x, m <= x <= M -> Rabs (df x) <= L) ->
  forall x z, m <= x <= M -> m <= z <= M -> exists v, bd v L /\ f x - f z = v * (x - z).
Proof.
  intros D B x z Hx Hz. destruct (MVT_gen f z x df) as (c & C1 & C2).
  - intros s Hs. apply D. unfold Rmin, Rmax in Hs. destruct (Rle_dec z x); lra.
  - intros s Hs. apply continuity_pt_filterlim. apply (ex_derive_continuous f). exists (df s). apply D. unfold Rmin, Rmax in Hs. destruct (Rle_dec z x); lra.
  - exists (df c). split; [|exact C2]. apply B. unfold Rmin, Rmax in C1. destruct (Rle_dec z x); lra.
Qed.
