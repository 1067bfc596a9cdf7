(** A flat universe rolling down the branch of one of primpy's featureless potentials from a start no
    faster than slow roll; independent variable arbitrary (Proofs/SlowRollBound.v). *)
From Coq Require Import Reals List Lra Lia Classical.
From Coquelicot Require Import Coquelicot.
From Verif Require Import Base Model.Potentials Model.SlowRoll Model.Background Spec.PotentialSpec Spec.SlowRollSpec Spec.BackgroundSpec
  Proofs.PotentialEpsAll Proofs.PhiEnd Proofs.SRN Proofs.Bracket Proofs.BackgroundT Proofs.BackgroundEx Proofs.Unique Proofs.Stability Proofs.SlowRollBound.
Open Scope R_scope.

(** a function that decreases to the right of x has no positive derivative there *)
Lemma decr_derive (f : R -> R) x l r : is_derive f x l -> 0 < r -> (forall u, x < u < x + r -> f u <= f x) -> l <= 0.
Proof.
  intros D Hr Hd. destruct (Rle_dec l 0) as [|N]; [assumption|]. exfalso. assert (0 < l / 2) by lra.
  apply is_derive_Reals in D. destruct (D (l / 2) ltac:(lra)) as (dl & Q). set (h := Rmin (dl / 2) (r / 2)).
  assert (HH : 0 < h < dl /\ h < r). { pose proof (cond_pos dl). unfold h, Rmin. destruct (Rle_dec _ _); lra. }
  specialize (Q h ltac:(lra)). rewrite Rabs_right in Q by lra. specialize (Q ltac:(lra)).
  pose proof (Hd (x + h) ltac:(lra)) as F. apply Rabs_lt_between in Q.
  assert ((f (x + h) - f x) / h <= 0) by (unfold Rdiv; apply Rmult_le_0_r; [lra|left; apply Rinv_0_lt_compat; lra]). lra.
Qed.

Definition dw_ge1 (P : pot) : Prop := forall p phi0, P = DoubleWell p phi0 -> 1 <= p.

Section Pot.
Variables (P : pot) (L : R).
Hypotheses (HF : featureless P) (HV : valid P) (HL : L <> 0) (HD : dw_ge1 P).

Lemma branch_room x : branch P x -> exists r, 0 < r /\ forall u, 0 < u <= x + r -> branch P u.
Proof.
  intros Bx. destruct P; simpl in *; try contradiction;
  try (exists 1; split; [lra|intros u Hu; lra]);
  (exists ((phi0 - x) / 2); split; [lra|intros u Hu; lra]).
Qed.
Lemma branch_gt0 x : branch P x -> 0 < x.
Proof. clear HF HV HD. intros Bx. destruct P; simpl in *; lra. Qed.
Lemma branch_lam2 x : branch P x -> (dV P L x / V P L x)^2 = 2 * eps1V P x.
Proof.
  intros Bx. destruct (branch_pos P L x HF HV HL Bx) as [A B]. rewrite (eps1_all P L x HF (branch_in_domain P x HF HV Bx)); lra.
Qed.
Lemma branch_derivs x : branch P x -> is_derive (V P L) x (dV P L x) /\ is_derive (dV P L) x (d2V P L x).
Proof. intros Bx. destruct (potfun_smooth P L x (branch_in_domain P x HF HV Bx)) as (A & B & _). split; assumption. Qed.
(** log-concavity on the branch *)
Lemma branch_lc x : branch P x -> d2V P L x * V P L x <= (dV P L x)^2.
Proof.
  intros Bx. destruct (branch_pos P L x HF HV HL Bx) as [A B]. destruct (branch_derivs x Bx) as [D1 D2].
  destruct (branch_room x Bx) as (r & Hr & RM).
  assert (DL : is_derive (fun u => dV P L u / V P L u) x ((d2V P L x * V P L x - (dV P L x)^2) / (V P L x)^2)).
  { evar_last; [auto_derive; [repeat split; try exd; lra|reflexivity]|]. undd. toR. field. lra. }
  apply (decr_derive _ _ _ r) in DL; [|exact Hr|].
  - assert (0 < (V P L x)^2) by (apply pow_lt; exact A). apply (Rmult_le_compat_r ((V P L x)^2)) in DL; [|lra].
    replace ((d2V P L x * V P L x - dV P L x ^ 2) / V P L x ^ 2 * V P L x ^ 2) with (d2V P L x * V P L x - dV P L x ^ 2) in DL by (field; lra). lra.
  - intros u Hu. pose proof (branch_gt0 x Bx). assert (Bu : branch P u) by (apply RM; lra).
    destruct (branch_pos P L u HF HV HL Bu) as [A' B']. pose proof (eps1_decr P x u HF HV HD Bx Bu ltac:(lra)) as E.
    pose proof (branch_lam2 x Bx) as E1. pose proof (branch_lam2 u Bu) as E2.
    assert (0 < dV P L u / V P L u) by (apply Rdiv_lt_0_compat; assumption). assert (0 < dV P L x / V P L x) by (apply Rdiv_lt_0_compat; assumption). nra.
Qed.
Lemma V_at_0 : V P L 0 = 0.
Proof.
  assert (Z : forall p, 0 < p -> pypow 0 p = 0).
  { intros p Hp. unfold pypow. destruct (Rlt_dec 0 0); [lra|]. destruct (Req_EM_T 0 0); [|lra]. destruct (Req_EM_T p 0); lra. }
  assert (O : forall p, pypow 1 p = 1).
  { intros p. unfold pypow. destruct (Rlt_dec 0 1); [|lra]. unfold Rpower. rewrite ln_1, Rmult_0_r. apply exp_0. }
  destruct P; simpl in HF, HV; try contradiction; unfold V;
  try (unfold mono_V; rewrite Rabs_R0, Z by lra; ring).
  - unfold quad_V. ring.
  - unfold star_V. rewrite Rmult_0_r, exp_0. ring.
  - unfold nat_V. replace (PI * 0 / phi0) with 0 by (field; lra). rewrite cos_0. ring.
  - unfold dw_V, dw_x. replace (1 - 0 / phi0) with 1 by (field; lra). rewrite O. ring.
  - unfold dw_V, dw_x. replace (1 - 0 / phi0) with 1 by (field; lra). rewrite O. ring.
  - unfold dw_V, dw_x. replace (1 - 0 / phi0) with 1 by (field; lra). rewrite O. ring.
  - unfold tm_V, tm_C. replace (0 / s_6_a alpha) with 0 by (unfold Rdiv; ring). replace (tanh 0) with 0 by (unfold tanh; rewrite sinh_0; unfold Rdiv; ring). rewrite Z by lra. ring.
  - unfold rg_V. rewrite Z by lra. unfold Rdiv. ring.
  - unfold rg_V. rewrite Z by lra. unfold Rdiv. ring.
Qed.

Variables (phi q N H c : R -> R) (t0 b : R).
Hypothesis FL : forall s, t0 <= s < b ->
  is_derive phi s (c s * q s) /\ is_derive q s (c s * (-3 * H s * q s - dV P L (phi s))) /\
  is_derive N s (c s * H s) /\ is_derive H s (c s * (- (q s)^2 / 2)) /\
  3 * (H s)^2 = (q s)^2 / 2 + V P L (phi s) /\ 0 < H s /\ 0 < c s.
Hypothesis B0 : branch P (phi t0).
Hypothesis START : - H t0 * (dV P L (phi t0) / V P L (phi t0)) <= q t0 <= 0.

Lemma roll_N_le x z : t0 <= x <= z -> z < b -> N x <= N z.
Proof.
  intros A B. apply (mono_up N (fun s => c s * H s)); [| |lra].
  - intros s Hs. apply (FL s ltac:(lra)).
  - intros s Hs. destruct (FL s ltac:(lra)) as (_ & _ & _ & _ & _ & HP & C). nra.
Qed.
Lemma roll_cont t1 : t1 < b -> cont_in phi t0 t1.
Proof. intros Ht s Hs. apply (ex_derive_continuous phi). exists (c s * q s). apply (FL s ltac:(lra)). Qed.
(** while the field is positive it stays on the branch below its start *)
Lemma roll_branch t1 : t0 <= t1 < b -> (forall s, t0 <= s <= t1 -> 0 < phi s) ->
  forall s, t0 <= s <= t1 -> phi s <= phi t0 /\ branch P (phi s).
Proof.
  intros Ht POS. destruct (branch_room _ B0) as (r & Hr & RM).
  assert (LE : forall s, t0 <= s <= t1 -> phi s <= phi t0).
  { apply (boot_fwd phi t0 t1 (phi t0 + r) (phi t0)); [lra|apply roll_cont; lra|lra|lra|].
    intros d1 Hd Q. assert (BR : forall s, t0 <= s <= d1 -> branch P (phi s)) by (intros s Hs; apply RM; split; [apply POS; lra|apply Q, Hs]).
    apply (flow_phi_le phi q N H c (V P L) (dV P L) t0 d1); [intros s Hs; apply FL; lra| |apply START|lra].
    intros s Hs. apply branch_pos; try assumption. apply BR, Hs. }
  intros s Hs. split; [apply LE, Hs|]. apply RM. pose proof (POS s Hs). pose proof (LE s Hs). lra.
Qed.
Lemma roll_accel t1 e : t0 <= t1 < b -> (forall s, t0 <= s <= t1 -> 0 < phi s) -> branch P e -> eps1V P e = 1 -> e < phi t1 ->
  0 < V P L (phi t1) - (q t1)^2.
Proof.
  intros Ht POS Be Ee Le. pose proof (roll_branch t1 Ht POS) as BR. destruct (BR t1 ltac:(lra)) as [_ B1].
  apply (flow_accel phi q N H c (V P L) (dV P L) (d2V P L) t0 t1); try lra; try exact START.
  - intros s Hs. apply FL. lra.
  - intros s Hs. apply branch_derivs. apply BR, Hs.
  - intros s Hs. apply branch_pos; try assumption. apply BR, Hs.
  - intros s Hs. apply branch_lc. apply BR, Hs.
  - rewrite branch_lam2 by exact B1. pose proof (eps1_decr P e (phi t1) HF HV HD Be B1 Le). lra.
Qed.
Lemma roll_lower t1 e : t0 <= t1 < b -> branch P e -> eps1V P e = 1 -> Nfun P e e = 0 -> e <= phi t0 ->
  V P L (phi t1) - (q t1)^2 <= 0 -> Nfun P e (phi t0) <= N t1 - N t0.
Proof.
  intros Ht Be Ee Ne Le END. pose proof (branch_gt0 e Be) as E0.
  destruct (classic (exists s, t0 <= s <= t1 /\ phi s <= e)) as [(z & Hz & A)|A].
  - destruct (first_hit phi t0 z e ltac:(lra) (roll_cont z ltac:(lra)) Le A) as (s & Hs & Es & AB).
    assert (POS : forall r, t0 <= r <= s -> 0 < phi r) by (intros r Hr; pose proof (AB r Hr); lra).
    pose proof (roll_branch s ltac:(lra) POS) as BR.
    assert (X : Nfun P e (phi t0) - Nfun P e (phi s) <= N s - N t0).
    { apply (flow_lower phi q N H c (V P L) (dV P L) (d2V P L) t0 s); try lra; try exact START.
      - intros r Hr. apply FL. lra.
      - intros r Hr. apply branch_derivs, BR, Hr.
      - intros r Hr. apply branch_pos; try assumption. apply BR, Hr.
      - intros r Hr. apply branch_lc. apply BR, Hr.
      - intros r Hr. apply Nfun_derive; try assumption. apply BR, Hr. }
    rewrite Es, Ne in X. pose proof (roll_N_le s t1 ltac:(lra) ltac:(lra)). lra.
  - exfalso. assert (AB : forall s, t0 <= s <= t1 -> e < phi s).
    { intros s Hs. destruct (Rle_dec (phi s) e) as [X|X]; [exfalso; apply A; exists s; split; assumption|lra]. }
    pose proof (roll_accel t1 e Ht ltac:(intros s Hs; pose proof (AB s Hs); lra) Be Ee (AB t1 ltac:(lra))). lra.
Qed.
(** while it inflates the field has not reached the bottom *)
Lemma roll_pos t1 : t0 <= t1 < b -> (forall s, t0 <= s <= t1 -> 0 < V P L (phi s) - (q s)^2) -> forall s, t0 <= s <= t1 -> 0 < phi s.
Proof.
  intros Ht INF s Hs. destruct (Rlt_dec 0 (phi s)) as [|A]; [assumption|]. exfalso. pose proof (branch_gt0 _ B0).
  destruct (first_hit phi t0 s 0 ltac:(lra) (roll_cont s ltac:(lra)) ltac:(lra) ltac:(lra)) as (r & Hr & Er & _).
  pose proof (INF r ltac:(lra)) as I. rewrite Er, V_at_0 in I. nra.
Qed.
Lemma roll_upper t1 : t0 <= t1 < b -> q t0 < 0 -> (forall s, t0 <= s <= t1 -> 0 < V P L (phi s) - (q s)^2) ->
  N t1 - N t0 < phi t0 * (H t0 / - q t0).
Proof.
  intros Ht Q0 INF. pose proof (roll_pos t1 Ht INF) as POS. pose proof (roll_branch t1 Ht POS) as BR.
  assert (X : phi t1 - phi t0 <= q t0 / H t0 * (N t1 - N t0)).
  { apply (flow_upper phi q N H c (V P L) (dV P L) (d2V P L) t0 t1); try lra; try exact START.
    - intros r Hr. apply FL. lra.
    - intros r Hr. apply branch_derivs, BR, Hr.
    - intros r Hr. apply branch_pos; try assumption. apply BR, Hr.
    - intros r Hr. apply branch_lc. apply BR, Hr. }
  pose proof (POS t1 ltac:(lra)) as P1. destruct (FL t0 ltac:(lra)) as (_ & _ & _ & _ & _ & HP & _).
  assert (W : 0 < H t0 / - q t0) by (apply Rdiv_lt_0_compat; lra).
  apply (Rmult_le_compat_r (H t0 / - q t0)) in X; [|lra].
  replace (q t0 / H t0 * (N t1 - N t0) * (H t0 / - q t0)) with (- (N t1 - N t0)) in X by (field; lra). nra.
Qed.
End Pot.
