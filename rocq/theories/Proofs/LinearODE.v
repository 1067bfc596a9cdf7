(** Existence for linear oscillators f'' + 2 g f' + w f = 0 with continuous coefficients on an open interval:
    Picard iteration with an exponential weight on the whole line (bounded coefficients), then gluing. *)
From Coq Require Import Reals Lra Lia.
From Coquelicot Require Import Coquelicot.
From Verif Require Import Spec.PerturbationSpec Proofs.BackgroundT Proofs.Unique Proofs.Picard Proofs.LipBox Properties.ModeUniqueProps.
Open Scope R_scope.

Section Whole.
Variables (g w : R -> R) (M x0 p q : R).
Hypothesis M1 : 1 <= M.
Hypothesis CG : forall x, continuous g x.
Hypothesis CW : forall x, continuous w x.
Hypothesis BD : forall x, 2 * Rabs (g x) + Rabs (w x) <= M.
Definition rhs (x u v : R) : R := - (2 * g x * v + w x * u).
Fixpoint lit (n : nat) : (R -> R) * (R -> R) :=
  match n with
  | O => (fun _ => p, fun _ => q)
  | Datatypes.S n => (fun t => p + RInt (snd (lit n)) x0 t, fun t => q + RInt (fun s => rhs s (fst (lit n) s) (snd (lit n) s)) x0 t)
  end.
Lemma rhs_cont u v x : continuous u x -> continuous v x -> continuous (fun s => rhs s (u s) (v s)) x.
Proof.
  intros Cu Cv. unfold rhs. apply (continuous_opp (fun s => 2 * g s * v s + w s * u s)).
  apply (continuous_plus (fun s => 2 * g s * v s) (fun s => w s * u s)).
  - apply (continuous_mult (fun s => 2 * g s) v); [|exact Cv]. apply (continuous_mult (fun _ => 2) g); [apply continuous_const|apply CG].
  - apply (continuous_mult w u); [apply CW|exact Cu].
Qed.
Lemma int_derive (f : R -> R) c x : (forall s, continuous f s) -> is_derive (fun t => c + RInt f x0 t) x (f x).
Proof.
  intros C. replace (f x) with (0 + f x) by ring. apply (@is_derive_plus R_AbsRing R_NormedModule); [apply @is_derive_const|].
  apply (is_derive_RInt f (RInt f x0) x0 x); [|apply C]. apply filter_forall. intros s. apply (RInt_correct (V := R_CompleteNormedModule)). apply ex_RInt_all, C.
Qed.
Lemma lit_cont n : (forall x, continuous (fst (lit n)) x) /\ (forall x, continuous (snd (lit n)) x).
Proof.
  induction n as [|n [Cu Cv]]; [split; intros x; apply continuous_const|].
  cbn [lit fst snd]. split; intros x; apply (ex_derive_continuous (V := R_NormedModule)); eexists; apply int_derive; [exact Cv|]. intros s. apply rhs_cont; [apply Cu|apply Cv].
Qed.
Lemma lit_derive n x : is_derive (fst (lit (Datatypes.S n))) x (snd (lit n) x) /\ is_derive (snd (lit (Datatypes.S n))) x (rhs x (fst (lit n) x) (snd (lit n) x)).
Proof.
  destruct (lit_cont n) as [Cu Cv]. cbn [lit fst snd]. split.
  - apply int_derive. exact Cv.
  - apply (int_derive (fun s => rhs s (fst (lit n) s) (snd (lit n) s))). intros s. apply rhs_cont; [apply Cu|apply Cv].
Qed.
Definition wt (t : R) : R := exp (2 * M * (t - x0)) + exp (- (2 * M * (t - x0))).
Definition ws (t : R) : R := exp (2 * M * (t - x0)) - exp (- (2 * M * (t - x0))).
Lemma wt_pos t : 0 < wt t. Proof. unfold wt. pose proof (exp_pos (2 * M * (t - x0))). pose proof (exp_pos (- (2 * M * (t - x0)))). lra. Qed.
Lemma wt_ge1 t : 1 <= wt t.
Proof.
  unfold wt. pose proof (exp_pos (2 * M * (t - x0))) as A. pose proof (exp_pos (- (2 * M * (t - x0)))) as B.
  assert (X : exp (2 * M * (t - x0)) * exp (- (2 * M * (t - x0))) = 1) by (rewrite <- exp_plus, Rplus_opp_r; apply exp_0). nra.
Qed.
Lemma ws_le t : Rabs (ws t) <= wt t.
Proof. unfold ws, wt. pose proof (exp_pos (2 * M * (t - x0))). pose proof (exp_pos (- (2 * M * (t - x0)))). apply Rabs_le. lra. Qed.
Lemma ws_derive t : is_derive ws t (2 * M * wt t).
Proof. unfold ws, wt. evar_last; [auto_derive; [exact I|reflexivity]|]. toR. unfold Rminus. ring. Qed.
(** a quantity starting from 0 whose derivative is below c W stays below c W / (2 M) *)
Lemma wt_int (G f : R -> R) c t : 0 <= c -> (forall s, is_derive G s (f s)) -> (forall s, Rabs (f s) <= c * wt s) -> G x0 = 0 -> Rabs (G t) <= c / (2 * M) * wt t.
Proof.
  intros C0 D B G0. set (k := c / (2 * M)). assert (K0 : 0 <= k) by (apply Rmult_le_pos; [exact C0|left; apply Rinv_0_lt_compat; lra]).
  assert (S0 : ws x0 = 0) by (unfold ws; replace (x0 - x0) with 0 by ring; rewrite Rmult_0_r, Ropp_0; ring).
  assert (DS : forall s, is_derive (fun s => k * ws s) s (c * wt s)).
  { intros s. eapply is_derive_eq; [apply is_derive_scal, ws_derive|]. unfold k. toR. field. lra. }
  assert (D1 : forall s, is_derive (fun s => k * ws s - G s) s (c * wt s - f s)) by (intros s; apply (@is_derive_minus R_AbsRing R_NormedModule); [apply DS|apply D]).
  assert (D2 : forall s, is_derive (fun s => k * ws s + G s) s (c * wt s + f s)) by (intros s; apply (@is_derive_plus R_AbsRing R_NormedModule); [apply DS|apply D]).
  assert (P1 : forall s, 0 <= c * wt s - f s) by (intros s; pose proof (B s) as X; apply Rabs_le_between in X; lra).
  assert (P2 : forall s, 0 <= c * wt s + f s) by (intros s; pose proof (B s) as X; apply Rabs_le_between in X; lra).
  assert (A : Rabs (G t) <= k * Rabs (ws t)).
  { destruct (Rle_dec x0 t) as [L|L].
    - pose proof (mono_up (fun s => k * ws s - G s) (fun s => c * wt s - f s) x0 t ltac:(intros; apply D1) ltac:(intros; apply P1) L) as X1.
      pose proof (mono_up (fun s => k * ws s + G s) (fun s => c * wt s + f s) x0 t ltac:(intros; apply D2) ltac:(intros; apply P2) L) as X2.
      cbv beta in X1, X2. rewrite S0, G0 in X1, X2. pose proof (Rle_abs (ws t)). assert (k * ws t <= k * Rabs (ws t)) by (apply Rmult_le_compat_l; assumption). apply Rabs_le. lra.
    - assert (L' : t <= x0) by lra.
      pose proof (mono_up (fun s => k * ws s - G s) (fun s => c * wt s - f s) t x0 ltac:(intros; apply D1) ltac:(intros; apply P1) L') as X1.
      pose proof (mono_up (fun s => k * ws s + G s) (fun s => c * wt s + f s) t x0 ltac:(intros; apply D2) ltac:(intros; apply P2) L') as X2.
      cbv beta in X1, X2. rewrite S0, G0 in X1, X2. pose proof (Rle_abs (- ws t)) as Z. rewrite Rabs_Ropp in Z. assert (k * - ws t <= k * Rabs (ws t)) by (apply Rmult_le_compat_l; assumption). apply Rabs_le. lra. }
  eapply Rle_trans; [exact A|]. apply Rmult_le_compat_l; [exact K0|apply ws_le].
Qed.
Lemma rhs_lin x u v u' v' : rhs x u v - rhs x u' v' = rhs x (u - u') (v - v').
Proof. unfold rhs. ring. Qed.
Lemma rhs_bound x u v r : Rabs u <= r -> Rabs v <= r -> Rabs (rhs x u v) <= M * r.
Proof.
  intros Hu Hv. unfold rhs. rewrite Rabs_Ropp. eapply Rle_trans; [apply Rabs_triang|]. rewrite !Rabs_mult. rewrite (Rabs_right 2) by lra.
  pose proof (Rabs_pos (g x)). pose proof (Rabs_pos (w x)). pose proof (Rabs_pos u). pose proof (BD x) as B.
  assert (2 * Rabs (g x) * Rabs v <= 2 * Rabs (g x) * r) by (apply Rmult_le_compat_l; lra). assert (Rabs (w x) * Rabs u <= Rabs (w x) * r) by (apply Rmult_le_compat_l; lra).
  assert ((2 * Rabs (g x) + Rabs (w x)) * r <= M * r) by (apply Rmult_le_compat_r; lra). lra.
Qed.
Let Bq := Rabs p + Rabs q.
Lemma Bq_pos : 0 <= Bq. Proof. unfold Bq. pose proof (Rabs_pos p). pose proof (Rabs_pos q). lra. Qed.
Lemma lit_x0 n : fst (lit n) x0 = p /\ snd (lit n) x0 = q.
Proof. destruct n; [split; reflexivity|]. cbn [lit fst snd]. rewrite !RInt_point. unfold zero; simpl. split; ring. Qed.
Lemma lit_step n : forall t, Rabs (fst (lit (Datatypes.S n)) t - fst (lit n) t) <= Bq * (/ 2)^n * wt t /\ Rabs (snd (lit (Datatypes.S n)) t - snd (lit n) t) <= Bq * (/ 2)^n * wt t.
Proof.
  pose proof Bq_pos as B0. induction n as [|n IH]; intros t.
  - destruct (lit_x0 1) as [Z1 Z2].
    assert (W : forall s, Bq <= Bq * wt s) by (intros s; pose proof (wt_ge1 s); nra).
    assert (HP : Rabs p <= Bq /\ Rabs q <= Bq) by (unfold Bq; pose proof (Rabs_pos p); pose proof (Rabs_pos q); lra).
    assert (F : M * Bq / (2 * M) * wt t <= Bq * (/ 2)^0 * wt t).
    { replace (M * Bq / (2 * M)) with (Bq / 2) by (field; lra). cbn [pow]. pose proof (wt_pos t). assert (0 <= Bq * wt t) by (apply Rmult_le_pos; lra). lra. }
    split; (eapply Rle_trans; [|exact F]).
    + apply (wt_int (fun s => fst (lit 1) s - fst (lit 0) s) (fun s => snd (lit 0) s - 0)); [apply Rmult_le_pos; lra| | |cbn beta; rewrite Z1; cbn; ring].
      * intros s. apply (@is_derive_minus R_AbsRing R_NormedModule); [apply lit_derive|cbn [lit fst]; apply @is_derive_const].
      * intros s. cbn [lit snd]. rewrite Rminus_0_r. pose proof (W s). assert (0 <= (M - 1) * (Bq * wt s)) by (apply Rmult_le_pos; lra). lra.
    + apply (wt_int (fun s => snd (lit 1) s - snd (lit 0) s) (fun s => rhs s (fst (lit 0) s) (snd (lit 0) s) - 0)); [apply Rmult_le_pos; lra| | |cbn beta; rewrite Z2; cbn; ring].
      * intros s. apply (@is_derive_minus R_AbsRing R_NormedModule); [apply lit_derive|cbn [lit snd]; apply @is_derive_const].
      * intros s. cbn [lit fst snd]. rewrite Rminus_0_r. eapply Rle_trans; [apply (rhs_bound s p q Bq); apply HP|]. rewrite Rmult_assoc. apply Rmult_le_compat_l; [lra|apply W].
  - pose proof (pow_le (/ 2) n ltac:(lra)) as P2. set (c := Bq * (/ 2)^n) in *. assert (C0 : 0 <= c) by (apply Rmult_le_pos; assumption).
    assert (F : M * c / (2 * M) * wt t <= Bq * (/ 2)^(Datatypes.S n) * wt t) by (right; unfold c; cbn [pow]; field; lra).
    destruct (lit_x0 (Datatypes.S n)) as [Z1 Z2]. destruct (lit_x0 (Datatypes.S (Datatypes.S n))) as [Z3 Z4].
    split; (eapply Rle_trans; [|exact F]).
    + apply (wt_int (fun s => fst (lit (Datatypes.S (Datatypes.S n))) s - fst (lit (Datatypes.S n)) s) (fun s => snd (lit (Datatypes.S n)) s - snd (lit n) s)); [apply Rmult_le_pos; lra| | |cbn beta; rewrite Z1, Z3; ring].
      * intros s. apply (@is_derive_minus R_AbsRing R_NormedModule); apply lit_derive.
      * intros s. destruct (IH s) as [_ I2]. pose proof (wt_pos s). assert (0 <= (M - 1) * (c * wt s)) by (apply Rmult_le_pos; [lra|apply Rmult_le_pos; lra]). lra.
    + apply (wt_int (fun s => snd (lit (Datatypes.S (Datatypes.S n))) s - snd (lit (Datatypes.S n)) s)
        (fun s => rhs s (fst (lit (Datatypes.S n)) s) (snd (lit (Datatypes.S n)) s) - rhs s (fst (lit n) s) (snd (lit n) s))); [apply Rmult_le_pos; lra| | |cbn beta; rewrite Z2, Z4; ring].
      * intros s. apply (@is_derive_minus R_AbsRing R_NormedModule); apply lit_derive.
      * intros s. rewrite rhs_lin. destruct (IH s) as [I1 I2]. eapply Rle_trans; [apply (rhs_bound _ _ _ (c * wt s)); assumption|]. lra.
Qed.
End Whole.

(** sequences whose steps halve converge uniformly where the weight is bounded *)
Section Halving.
Variables (fn : nat -> R -> R) (W : R -> R).
Hypothesis W0 : forall t, 0 <= W t.
Hypothesis ST : forall n t, Rabs (fn (Datatypes.S n) t - fn n t) <= (/ 2)^n * W t.
Lemma hv_far n k t : Rabs (fn (n + k)%nat t - fn n t) <= 2 * (/ 2)^n * W t.
Proof.
  assert (X : Rabs (fn (n + k)%nat t - fn n t) <= 2 * ((/ 2)^n * W t) * (1 - (/ 2) ^ k)).
  { induction k as [|k IH].
    - rewrite Nat.add_0_r, Rminus_diag_eq, Rabs_R0 by reflexivity. cbn [pow]. lra.
    - rewrite Nat.add_succ_r. replace (fn (Datatypes.S (n + k)) t - fn n t) with ((fn (Datatypes.S (n + k)) t - fn (n + k)%nat t) + (fn (n + k)%nat t - fn n t)) by ring.
      eapply Rle_trans; [apply Rabs_triang|]. pose proof (ST (n + k) t) as S1. rewrite pow_add in S1. cbn [pow]. lra. }
  pose proof (pow_le (/ 2) k ltac:(lra)). pose proof (pow_le (/ 2) n ltac:(lra)). assert (0 <= (/ 2)^n * W t) by (apply Rmult_le_pos; [assumption|apply W0]). nra.
Qed.
Definition hl (t : R) : R := real (Lim_seq (fun n => fn n t)).
Lemma hv_conv t : is_lim_seq (fun n => fn n t) (hl t).
Proof.
  apply Lim_seq_correct'. apply ex_lim_seq_cauchy_corr. intros e. pose proof (W0 t) as WP.
  destruct (half_small (pos e / (4 * W t + 1))) as (n & Hn); [apply Rdiv_lt_0_compat; [apply cond_pos|lra]|].
  exists n. intros i j Hi Hj. replace i with (n + (i - n))%nat by lia. replace j with (n + (j - n))%nat by lia.
  pose proof (hv_far n (i - n) t) as A. pose proof (hv_far n (j - n) t) as B.
  replace (fn (n + (i - n))%nat t - fn (n + (j - n))%nat t) with ((fn (n + (i - n))%nat t - fn n t) - (fn (n + (j - n))%nat t - fn n t)) by ring.
  apply Rle_lt_trans with (4 * (/ 2)^n * W t).
  - eapply Rle_trans; [apply Rabs_triang|]. rewrite Rabs_Ropp. lra.
  - apply (Rmult_lt_compat_l (4 * W t + 1)) in Hn; [|lra]. replace ((4 * W t + 1) * (pos e / (4 * W t + 1))) with (pos e) in Hn by (field; lra).
    pose proof (pow_le (/ 2) n ltac:(lra)). lra.
Qed.
Lemma hv_close n t : Rabs (fn n t - hl t) <= 2 * (/ 2)^n * W t.
Proof.
  rewrite Rabs_minus_sym. assert (L : is_lim_seq (fun k => Rabs (fn (n + k)%nat t - fn n t)) (Rabs (hl t - fn n t))).
  { apply (is_lim_seq_abs _ (Finite (hl t - fn n t))). apply is_lim_seq_minus'; [|apply is_lim_seq_const].
    pose proof (hv_conv t) as C. apply (is_lim_seq_incr_n _ n) in C. eapply is_lim_seq_ext; [|exact C]. intros k. cbv beta. rewrite Nat.add_comm. reflexivity. }
  exact (is_lim_seq_le _ _ _ _ (fun k => hv_far n k t) L (is_lim_seq_const _)).
Qed.
Lemma hv_unif (D : R -> Prop) c : (forall t, D t -> W t <= c) -> CVU_dom fn D.
Proof.
  intros HC e. set (c' := Rmax c 0). assert (CP : 0 <= c' /\ c <= c') by (unfold c'; split; [apply Rmax_r|apply Rmax_l]).
  destruct (half_small (pos e / (2 * c' + 1))) as (n & Hn); [apply Rdiv_lt_0_compat; [apply cond_pos|lra]|].
  exists n. intros m Hm x Dx. eapply Rle_lt_trans; [apply hv_close|]. pose proof (HC x Dx). pose proof (W0 x). pose proof (pow_le (/ 2) m ltac:(lra)).
  assert (PM : (/ 2)^m <= (/ 2)^n).
  { replace m with (n + (m - n))%nat by lia. rewrite pow_add. pose proof (pow_le (/ 2) n ltac:(lra)). assert ((/ 2)^(m - n) <= 1) by (clear; induction (m - n)%nat as [|k IH]; cbn [pow]; [lra|pose proof (pow_le (/ 2) k ltac:(lra)); lra]). nra. }
  apply (Rmult_lt_compat_l (2 * c' + 1)) in Hn; [|lra]. replace ((2 * c' + 1) * (pos e / (2 * c' + 1))) with (pos e) in Hn by (field; lra).
  assert ((/ 2)^m * W x <= (/ 2)^n * c') by (apply Rmult_le_compat; lra). pose proof (pow_le (/ 2) n ltac:(lra)). lra.
Qed.
End Halving.

Section Limit.
Variables (g w : R -> R) (M x0 p q : R).
Hypothesis M1 : 1 <= M.
Hypothesis CG : forall x, continuous g x.
Hypothesis CW : forall x, continuous w x.
Hypothesis BD : forall x, 2 * Rabs (g x) + Rabs (w x) <= M.
Let un n t := fst (lit g w x0 p q (Datatypes.S n)) t.
Let vn n t := snd (lit g w x0 p q (Datatypes.S n)) t.
Definition lsol : R -> R := fun t => real (Lim_seq (fun n => fst (lit g w x0 p q (Datatypes.S n)) t)).
Definition lsol1 : R -> R := fun t => real (Lim_seq (fun n => snd (lit g w x0 p q (Datatypes.S n)) t)).
Let W t := (Rabs p + Rabs q) * wt M x0 t.
Lemma W_pos t : 0 <= W t.
Proof. unfold W. pose proof (wt_pos M x0 t). pose proof (Rabs_pos p). pose proof (Rabs_pos q). apply Rmult_le_pos; lra. Qed.
Lemma half_le n t : (Rabs p + Rabs q) * (/ 2)^(Datatypes.S n) * wt M x0 t <= (/ 2)^n * W t.
Proof. pose proof (W_pos t) as X. unfold W in *. cbn [pow]. pose proof (pow_le (/ 2) n ltac:(lra)). assert (0 <= (/ 2)^n * ((Rabs p + Rabs q) * wt M x0 t)) by (apply Rmult_le_pos; assumption). lra. Qed.
Lemma u_st n t : Rabs (un (Datatypes.S n) t - un n t) <= (/ 2)^n * W t.
Proof. eapply Rle_trans; [apply (lit_step g w M x0 p q M1 CG CW BD)|]. apply half_le. Qed.
Lemma v_st n t : Rabs (vn (Datatypes.S n) t - vn n t) <= (/ 2)^n * W t.
Proof. eapply Rle_trans; [apply (lit_step g w M x0 p q M1 CG CW BD)|]. apply half_le. Qed.
Lemma W_bound r t : Rabs (t - x0) < r -> W t <= (Rabs p + Rabs q) * (2 * exp (2 * M * r)).
Proof.
  intros Ht. apply Rabs_def2 in Ht. unfold W, wt. pose proof (Rabs_pos p). pose proof (Rabs_pos q). apply Rmult_le_compat_l; [lra|].
  assert (exp (2 * M * (t - x0)) < exp (2 * M * r)) by (apply exp_increasing; apply Rmult_lt_compat_l; lra).
  assert (exp (- (2 * M * (t - x0))) < exp (2 * M * r)) by (apply exp_increasing; rewrite Ropp_mult_distr_r; apply Rmult_lt_compat_l; lra). lra.
Qed.
Definition disc (r t : R) : Prop := Rabs (t - x0) < r.
Lemma disc_open r : open (disc r).
Proof.
  intros t Ht. unfold disc in *. assert (E : 0 < r - Rabs (t - x0)) by lra. exists (mkposreal _ E). intros s Hs.
  change (Rabs (s + - t) < r - Rabs (t - x0)) in Hs. replace (s - x0) with ((s + - t) + (t - x0)) by ring. eapply Rle_lt_trans; [apply Rabs_triang|]. lra.
Qed.
Lemma disc_conn r : is_connected (disc r).
Proof. intros a b x Ha Hb Hx. unfold disc in *. apply Rabs_def2 in Ha. apply Rabs_def2 in Hb. apply Rabs_def1; lra. Qed.
Lemma CVU_ext (fn gn : nat -> R -> R) (D : R -> Prop) : (forall n x, D x -> fn n x = gn n x) -> CVU_dom fn D -> CVU_dom gn D.
Proof.
  intros E C e. destruct (C e) as (n & Hn). exists n. intros m Hm x Dx. rewrite <- (E m x Dx). rewrite <- (Lim_seq_ext (fun k => fn k x) (fun k => gn k x)) by (intros k; apply E, Dx). apply Hn; assumption.
Qed.
Lemma lsol_start : lsol x0 = p /\ lsol1 x0 = q.
Proof.
  unfold lsol, lsol1. split.
  - rewrite (Lim_seq_ext _ (fun _ => p)) by (intros n; apply (lit_x0 g w x0 p q)). rewrite Lim_seq_const. reflexivity.
  - rewrite (Lim_seq_ext _ (fun _ => q)) by (intros n; apply (lit_x0 g w x0 p q)). rewrite Lim_seq_const. reflexivity.
Qed.
Lemma lim_shift (fn : nat -> R) : Lim_seq (fun n => fn (Datatypes.S n)) = Lim_seq fn.
Proof. apply Lim_seq_incr_1. Qed.
Lemma lsol_derive t : is_derive lsol t (lsol1 t) /\ is_derive lsol1 t (rhs g w t (lsol t) (lsol1 t)).
Proof.
  set (r := Rabs (t - x0) + 1). assert (Dt : disc r t) by (unfold disc, r; lra).
  assert (LD : forall n x, is_derive (un (Datatypes.S n)) x (vn n x) /\ is_derive (vn (Datatypes.S n)) x (rhs g w x (un n x) (vn n x))).
  { intros n x. exact (lit_derive g w x0 p q CG CW (Datatypes.S n) x). }
  assert (CO : forall n, (forall x, continuous (un n) x) /\ (forall x, continuous (vn n) x)) by (intros n; exact (lit_cont g w x0 p q CG CW (Datatypes.S n))).
  pose proof (hv_conv un W W_pos u_st) as UC. pose proof (hv_conv vn W W_pos v_st) as VC.
  set (c := (Rabs p + Rabs q) * (2 * exp (2 * M * r))).
  assert (UU : CVU_dom un (disc r)) by (apply (hv_unif un W W_pos u_st _ c); intros x Hx; apply W_bound; exact Hx).
  assert (VU : CVU_dom vn (disc r)) by (apply (hv_unif vn W W_pos v_st _ c); intros x Hx; apply W_bound; exact Hx).
  assert (SH : forall fn : nat -> R -> R, CVU_dom fn (disc r) -> CVU_dom (fun n => fn (Datatypes.S n)) (disc r)).
  { intros fn C e. destruct (C e) as (n & Hn). exists n. intros m Hm x Dx. rewrite (lim_shift (fun k => fn k x)). apply (Hn (Datatypes.S m)); [lia|exact Dx]. }
  assert (D1 : forall n x, Derive (un (Datatypes.S n)) x = vn n x) by (intros n x; apply is_derive_unique, LD).
  assert (D2 : forall n x, Derive (vn (Datatypes.S n)) x = rhs g w x (un n x) (vn n x)) by (intros n x; apply is_derive_unique, LD).
  assert (RU : CVU_dom (fun n x => rhs g w x (un n x) (vn n x)) (disc r)).
  { assert (LR : forall x, Lim_seq (fun n => rhs g w x (un n x) (vn n x)) = Finite (rhs g w x (hl un x) (hl vn x))).
    { intros x. apply is_lim_seq_unique. unfold rhs.
      apply (is_lim_seq_opp (fun n => 2 * g x * vn n x + w x * un n x) (Finite (2 * g x * hl vn x + w x * hl un x))).
      apply is_lim_seq_plus'; [apply (is_lim_seq_scal_l _ (2 * g x) (Finite (hl vn x)))|apply (is_lim_seq_scal_l _ (w x) (Finite (hl un x)))]; [apply VC|apply UC]. }
    intros e. assert (E2 : 0 < pos e / M) by (apply Rdiv_lt_0_compat; [apply cond_pos|lra]).
    destruct (UU (mkposreal _ E2)) as (n1 & H1). destruct (VU (mkposreal _ E2)) as (n2 & H2). cbn [pos] in H1, H2.
    exists (Nat.max n1 n2). intros m Hm x Dx. specialize (H1 m ltac:(lia) x Dx). specialize (H2 m ltac:(lia) x Dx).
    rewrite LR. cbn [real]. rewrite rhs_lin. change (real (Lim_seq (fun n0 => un n0 x))) with (hl un x) in H1. change (real (Lim_seq (fun n0 => vn n0 x))) with (hl vn x) in H2.
    set (z := Rmax (Rabs (un m x - hl un x)) (Rabs (vn m x - hl vn x))).
    eapply Rle_lt_trans; [apply (rhs_bound g w M BD x _ _ z); [apply Rmax_l|apply Rmax_r]|].
    assert (Z : z < pos e / M) by (unfold z, Rmax; destruct (Rle_dec _ _); lra). apply (Rmult_lt_compat_l M) in Z; [|lra]. replace (M * (pos e / M)) with (pos e) in Z by (field; lra). exact Z. }
  split.
  - assert (Q1 : forall (n : nat) (x : R), disc r x -> ex_derive (un (Datatypes.S n)) x) by (intros n x _; exists (vn n x); exact (proj1 (LD n x))).
    assert (Q2 : forall (n : nat) (x : R), disc r x -> continuity_pt (Derive (un (Datatypes.S n))) x).
    { intros n x _. apply (continuity_pt_ext (vn n)); [intros s; symmetry; exact (D1 n s)|apply continuity_pt_filterlim; exact (proj2 (CO n) x)]. }
    assert (Q3 : CVU_dom (fun n x => Derive (un (Datatypes.S n)) x) (disc r)).
    { apply (CVU_ext vn); [intros n x _; symmetry; exact (D1 n x)|exact VU]. }
    pose proof (CVU_Derive (fun n => un (Datatypes.S n)) (disc r) (disc_open r) (disc_conn r) (SH un UU) Q1 Q2 Q3 t Dt) as X'.
    rewrite (Lim_seq_ext _ (fun n => vn n t)) in X' by (intros n; apply D1).
    eapply is_derive_ext; [|exact X']. intros s. cbv beta. unfold lsol. f_equal. apply (lim_shift (fun n => un n s)).
  - assert (Q1 : forall (n : nat) (x : R), disc r x -> ex_derive (vn (Datatypes.S n)) x) by (intros n x _; exists (rhs g w x (un n x) (vn n x)); exact (proj2 (LD n x))).
    assert (Q2 : forall (n : nat) (x : R), disc r x -> continuity_pt (Derive (vn (Datatypes.S n))) x).
    { intros n x _. apply (continuity_pt_ext (fun s => rhs g w s (un n s) (vn n s))); [intros s; symmetry; exact (D2 n s)|].
      apply continuity_pt_filterlim, rhs_cont; first [exact (proj1 (CO n) x)|exact (proj2 (CO n) x)|exact (proj1 (CO n))|exact (proj2 (CO n))|assumption]. }
    assert (Q3 : CVU_dom (fun n x => Derive (vn (Datatypes.S n)) x) (disc r)).
    { apply (CVU_ext (fun n x => rhs g w x (un n x) (vn n x))); [intros n x _; symmetry; exact (D2 n x)|exact RU]. }
    pose proof (CVU_Derive (fun n => vn (Datatypes.S n)) (disc r) (disc_open r) (disc_conn r) (SH vn VU) Q1 Q2 Q3 t Dt) as X'.
    rewrite (Lim_seq_ext _ (fun n => rhs g w t (un n t) (vn n t))) in X' by (intros n; apply D2).
    assert (LR : Lim_seq (fun n => rhs g w t (un n t) (vn n t)) = Finite (rhs g w t (hl un t) (hl vn t))).
    { apply is_lim_seq_unique. unfold rhs.
      apply (is_lim_seq_opp (fun n => 2 * g t * vn n t + w t * un n t) (Finite (2 * g t * hl vn t + w t * hl un t))).
      apply is_lim_seq_plus'; [apply (is_lim_seq_scal_l _ (2 * g t) (Finite (hl vn t)))|apply (is_lim_seq_scal_l _ (w t) (Finite (hl un t)))]; [apply VC|apply UC]. }
    rewrite LR in X'. cbn [real] in X'.
    eapply is_derive_ext; [|exact X']. intros s. cbv beta. unfold lsol1. f_equal. apply (lim_shift (fun n => vn n s)).
Qed.
End Limit.

(** ** an open interval *)
Section Glue.
Variables (g w : R -> R) (a b x0 p q : R).
Hypothesis H0 : a < x0 < b.
Hypothesis CO : forall x, a < x < b -> continuous g x /\ continuous w x.
Definition gU (c d : R) : R -> R := lsol (fun t => g (cl c d t)) (fun t => w (cl c d t)) x0 p q.
Lemma cl_cont (f : R -> R) c d x : a < c -> c <= d -> d < b -> (forall x, a < x < b -> continuous f x) -> continuous (fun t => f (cl c d t)) x.
Proof.
  intros Ha Hc Hd Cf. apply (continuous_comp (cl c d) f).
  - apply (lip_cont _ 1). intros s t. rewrite Rmult_1_l. apply cl_lip.
  - apply Cf. pose proof (cl_in c d x Hc). lra.
Qed.
Lemma gU_sol c d : a < c -> c < x0 < d -> d < b -> oscillator g w (gU c d) c d /\ gU c d x0 = p /\ is_derive (gU c d) x0 q.
Proof.
  intros Ha Hc Hd.
  destruct (bounded g c d ltac:(lra)) as (G & Gp & BG); [intros s Hs; apply CO; lra|].
  destruct (bounded w c d ltac:(lra)) as (W & Wp & BW); [intros s Hs; apply CO; lra|].
  set (g' := fun t => g (cl c d t)). set (w' := fun t => w (cl c d t)). set (M := 1 + 2 * G + W).
  assert (C1 : forall x, continuous g' x) by (intros x; apply (cl_cont g); try lra; intros s Hs; apply CO, Hs).
  assert (C2 : forall x, continuous w' x) by (intros x; apply (cl_cont w); try lra; intros s Hs; apply CO, Hs).
  assert (BD : forall x, 2 * Rabs (g' x) + Rabs (w' x) <= M).
  { intros x. pose proof (BG (cl c d x) (cl_in c d x ltac:(lra))). pose proof (BW (cl c d x) (cl_in c d x ltac:(lra))). unfold g', w', M. lra. }
  pose proof (lsol_derive g' w' M x0 p q ltac:(unfold M; lra) C1 C2 BD) as D. destruct (lsol_start g' w' x0 p q) as [S0 S1].
  split; [|split; [exact S0|]].
  - exists (lsol1 g' w' x0 p q). intros x Hx. destruct (D x) as [D1 D2]. split; [exact D1|].
    assert (GX : g' x = g x) by (unfold g'; rewrite (cl_id c d x) by lra; reflexivity). assert (WX : w' x = w x) by (unfold w'; rewrite (cl_id c d x) by lra; reflexivity).
    unfold rhs in D2. rewrite GX, WX in D2. exact D2.
  - destruct (D x0) as [D1 _]. rewrite S1 in D1. exact D1.
Qed.
Lemma osc_sub f c d c' d' : c <= c' -> d' <= d -> oscillator g w f c d -> oscillator g w f c' d'.
Proof. intros Hc Hd (f1 & F). exists f1. intros x Hx. apply F. lra. Qed.
Lemma gU_agree c d c' d' s : a < c -> c < x0 < d -> d < b -> a < c' -> c' < x0 < d' -> d' < b -> c < s < d -> c' < s < d' -> gU c d s = gU c' d' s.
Proof.
  intros A1 A2 A3 B1 B2 B3 S1 S2. destruct (gU_sol c d A1 A2 A3) as (O1 & I1 & D1). destruct (gU_sol c' d' B1 B2 B3) as (O2 & I2 & D2).
  set (c'' := Rmax c c'). set (d'' := Rmin d d').
  assert (E : c <= c'' /\ c' <= c'' /\ d'' <= d /\ d'' <= d') by (unfold c'', d''; pose proof (Rmax_l c c'); pose proof (Rmax_r c c'); pose proof (Rmin_l d d'); pose proof (Rmin_r d d'); lra).
  assert (E' : forall s, c < s < d -> c' < s < d' -> c'' < s < d'') by (intros r Hr Hr'; unfold c'', d''; split; [apply Rmax_lub_lt; lra|apply Rmin_glb_lt; lra]).
  pose proof (E' x0 A2 B2) as X0. pose proof (E' s S1 S2) as XS.
  apply (osc_unique g w (gU c d) (gU c' d') c'' d'' x0).
  - apply (osc_sub _ c d); try lra. exact O1.
  - apply (osc_sub _ c' d'); try lra. exact O2.
  - intros x Hx. apply CO. lra.
  - exact X0.
  - congruence.
  - rewrite (is_derive_unique _ _ _ D1), (is_derive_unique _ _ _ D2). reflexivity.
  - exact XS.
Qed.
Definition gc (x : R) : R := (a + Rmin x x0) / 2.
Definition gd (x : R) : R := (b + Rmax x x0) / 2.
Lemma gcd_ok x : a < x < b -> a < gc x /\ gc x < x0 < gd x /\ gd x < b /\ gc x < x < gd x.
Proof. intros Hx. unfold gc, gd, Rmin, Rmax. destruct (Rle_dec x x0); lra. Qed.
Definition gF (x : R) : R := gU (gc x) (gd x) x.
Lemma gF_eq c d s : a < c -> c < x0 < d -> d < b -> c < s < d -> gF s = gU c d s.
Proof.
  intros A1 A2 A3 S. destruct (gcd_ok s ltac:(lra)) as (X1 & X2 & X3 & X4). unfold gF. apply gU_agree; assumption.
Qed.
Lemma near_int c d x : c < x < d -> locally x (fun s => c < s < d).
Proof.
  intros Hx. assert (E : 0 < Rmin (x - c) (d - x)) by (apply Rmin_glb_lt; lra). exists (mkposreal _ E). intros s Hs. change (Rabs (s + - x) < Rmin (x - c) (d - x)) in Hs.
  pose proof (Rmin_l (x - c) (d - x)). pose proof (Rmin_r (x - c) (d - x)). apply Rabs_def2 in Hs. lra.
Qed.
Lemma osc_exists : exists f, oscillator g w f a b /\ f x0 = p /\ is_derive f x0 q.
Proof.
  assert (LOC : forall x, a < x < b -> exists c d f1, a < c /\ c < x0 < d /\ d < b /\ c < x < d /\
    forall s, c < s < d -> is_derive gF s (f1 s) /\ is_derive f1 s (- (2 * g s * f1 s + w s * gF s))).
  { intros x Hx. destruct (gcd_ok x Hx) as (X1 & X2 & X3 & X4). destruct (gU_sol _ _ X1 X2 X3) as ((f1 & F) & _).
    exists (gc x), (gd x), f1. split; [exact X1|]. split; [exact X2|]. split; [exact X3|]. split; [exact X4|]. intros s Hs. destruct (F s Hs) as [D1 D2]. split.
    - apply (is_derive_ext_loc (gU (gc x) (gd x))); [|exact D1]. apply (filter_imp (fun s => gc x < s < gd x)); [|apply near_int, Hs]. intros r Hr. symmetry. apply gF_eq; assumption.
    - rewrite (gF_eq (gc x) (gd x) s X1 X2 X3 Hs). exact D2. }
  exists gF. split; [|split].
  - exists (Derive gF). intros x Hx. destruct (LOC x Hx) as (c & d & f1 & _ & _ & _ & X4 & F). destruct (F x X4) as [D1 D2].
    rewrite (is_derive_unique _ _ _ D1). split; [exact D1|]. apply (is_derive_ext_loc f1); [|exact D2].
    apply (filter_imp (fun s => c < s < d)); [|apply near_int, X4]. intros r Hr. symmetry. apply is_derive_unique, F, Hr.
  - destruct (gcd_ok x0 H0) as (X1 & X2 & X3 & _). apply (gU_sol _ _ X1 X2 X3).
  - destruct (gcd_ok x0 H0) as (X1 & X2 & X3 & _). destruct (gU_sol _ _ X1 X2 X3) as (_ & _ & D).
    apply (is_derive_ext_loc (gU (gc x0) (gd x0))); [|exact D]. apply (filter_imp (fun s => gc x0 < s < gd x0)); [|apply near_int, X2]. intros r Hr. symmetry. apply gF_eq; assumption.
Qed.
End Glue.
