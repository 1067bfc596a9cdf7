(** The flow from a start that rolls faster than the slow-roll attractor (InflationStartIC): it joins the attractor, and
    inflation lasts a finite number of e-folds bounded from both sides (used for C125). *)
From Coq Require Import Reals List Lra Lia Classical.
From Coquelicot Require Import Coquelicot.
From Verif Require Import Base Model.Potentials Model.SlowRoll Model.Background Spec.PotentialSpec Spec.SlowRollSpec Spec.BackgroundSpec
  Proofs.PotentialEpsAll Proofs.PhiEnd Proofs.SRN Proofs.Bracket Proofs.BackgroundT Proofs.BackgroundEx Proofs.Unique Proofs.Stability Proofs.SlowRollBound Proofs.Roll Proofs.RollEnd Proofs.CalibPure.
Open Scope R_scope.

Section Fast.
Variables (P : pot) (L : R).
Hypotheses (HF : featureless P) (HV : valid P) (HL : L <> 0) (HD : dw_ge1 P).
Variables (phi q N H c : R -> R) (t0 b : R).
Hypothesis FL : forall s, t0 <= s < b ->
  is_derive phi s (c s * q s) /\ is_derive q s (c s * (-3 * H s * q s - dV P L (phi s))) /\
  is_derive N s (c s * H s) /\ is_derive H s (c s * (- (q s)^2 / 2)) /\
  3 * (H s)^2 = (q s)^2 / 2 + V P L (phi s) /\ 0 < H s /\ 0 < c s.
Hypothesis B0 : branch P (phi t0).
Let lam (s : R) := dV P L (phi s) / V P L (phi s).
Hypothesis FAST : q t0 < - H t0 * lam t0.
Variable t1 : R.
Hypothesis T1 : t0 <= t1 < b.
Hypothesis INF : forall s, t0 <= s <= t1 -> 0 <= V P L (phi s) - (q s)^2.
Let g (s : R) := q s + H s * lam s.
Let v (s : R) := q s / H s.

Lemma lam_pos x : branch P x -> 0 < dV P L x / V P L x.
Proof. intros Hb. destruct (branch_pos P L x HF HV HL Hb). apply Rdiv_lt_0_compat; assumption. Qed.
Lemma f_q0 : q t0 < 0.
Proof. destruct (FL t0 ltac:(lra)) as (_ & _ & _ & _ & _ & HP & _). pose proof (lam_pos _ B0) as X. unfold lam in FAST. nra. Qed.
Lemma f_pos s : t0 <= s <= t1 -> 0 < phi s.
Proof.
  intros Hs. destruct (Rlt_dec 0 (phi s)) as [|A]; [assumption|]. exfalso. pose proof (branch_gt0 P _ B0).
  assert (CO : cont_in phi t0 s). { intros u Hu. apply (ex_derive_continuous phi). exists (c u * q u). apply (FL u ltac:(lra)). }
  destruct (first_hit phi t0 s 0 ltac:(lra) CO ltac:(lra) ltac:(lra)) as (r & Hr & Er & _).
  pose proof (INF r ltac:(lra)) as I. destruct (FL r ltac:(lra)) as (_ & _ & _ & _ & FR & HP & _). rewrite Er, V_at_0 in * by assumption. nra.
Qed.
Lemma f_branch : forall s, t0 <= s <= t1 -> phi s <= phi t0 /\ branch P (phi s).
Proof.
  destruct (branch_room P HF HV HD _ B0) as (r & Hr & RM). pose proof f_q0 as Q0.
  assert (LE : forall s, t0 <= s <= t1 -> phi s <= phi t0).
  { apply (boot_fwd phi t0 t1 (phi t0 + r) (phi t0)); [lra| |lra|lra|].
    { intros u Hu. apply (ex_derive_continuous phi). exists (c u * q u). apply (FL u ltac:(lra)). }
    intros d1 Hd Q. assert (BR : forall s, t0 <= s <= d1 -> branch P (phi s)) by (intros s Hs; apply RM; split; [apply f_pos; lra|apply Q, Hs]).
    apply (flow_phi_le phi q N H c (V P L) (dV P L) t0 d1); [intros s Hs; apply FL; lra| |lra|lra].
    intros s Hs. apply branch_pos; try assumption. apply BR, Hs. }
  intros s Hs. split; [apply LE, Hs|]. apply RM. pose proof (f_pos s Hs). pose proof (LE s Hs). lra.
Qed.
Lemma f_data s : t0 <= s <= t1 -> 0 < V P L (phi s) /\ 0 < dV P L (phi s) /\ is_derive (V P L) (phi s) (dV P L (phi s)) /\ is_derive (dV P L) (phi s) (d2V P L (phi s)) /\
  d2V P L (phi s) * V P L (phi s) <= (dV P L (phi s))^2.
Proof.
  intros Hs. destruct (f_branch s Hs) as [_ Bs]. destruct (branch_pos P L _ HF HV HL Bs) as [X Y]. destruct (branch_derivs P L HF HV _ Bs) as [D1 D2].
  split; [exact X|]. split; [exact Y|]. split; [exact D1|]. split; [exact D2|]. apply branch_lc; assumption.
Qed.
Lemma f_q s : t0 <= s <= t1 -> q s <= 0.
Proof.
  intros Hs. pose proof f_q0. apply (flow_falls_le phi q N H c (V P L) (dV P L) t0 t1); [intros u Hu; apply FL; lra| |lra|exact Hs].
  intros u Hu. destruct (f_data u Hu) as (A & B & _). split; assumption.
Qed.
Lemma f_lam s : t0 <= s <= t1 -> lam t0 <= lam s.
Proof.
  intros Hs. destruct (f_branch s Hs) as [LE Bs]. destruct (Req_dec (phi s) (phi t0)) as [E|NE]; [unfold lam; rewrite E; lra|].
  pose proof (eps1_decr P (phi s) (phi t0) HF HV HD Bs B0 ltac:(lra)) as X.
  pose proof (branch_lam2 P L HF HV HL _ Bs) as Y1. pose proof (branch_lam2 P L HF HV HL _ B0) as Y2. pose proof (lam_pos _ Bs) as Z1. pose proof (lam_pos _ B0) as Z2.
  unfold lam. set (x := dV P L (phi s) / V P L (phi s)) in *. set (z := dV P L (phi t0) / V P L (phi t0)) in *. nra.
Qed.
Lemma f_mono x z : t0 <= x -> x <= z -> z <= t1 -> exp (3 * N x) * g x <= exp (3 * N z) * g z.
Proof.
  intros A1 A2 A3.
  apply (mono_up (fun s => exp (3 * N s) * (q s + H s * lam s))
    (fun s => exp (3 * N s) * (H s * c s * q s * ((d2V P L (phi s) * V P L (phi s) - (dV P L (phi s))^2) / (V P L (phi s))^2)))); [| |lra].
  - intros s Hs. destruct (FL s ltac:(lra)) as (D1 & D2 & D3 & D4 & FR & HP & C). destruct (f_data s ltac:(lra)) as (U1 & U2 & E1 & E2 & _). unfold lam.
    evar_last; [auto_derive; [repeat split; try exd; lra|reflexivity]|]. undd. toR.
    set (w := V P L (phi s)) in *. set (w1 := dV P L (phi s)) in *. set (w2 := d2V P L (phi s)) in *. set (ee := exp (3 * N s)).
    assert (W : c s * (- q s ^ 2 / 2) = c s * (w - 3 * H s ^ 2)) by (rewrite FR; field).
    rewrite W. clearbody ee w w1 w2. field. lra.
  - intros s Hs. destruct (FL s ltac:(lra)) as (_ & _ & _ & _ & _ & HP & C). pose proof (f_q s ltac:(lra)) as Q. destruct (f_data s ltac:(lra)) as (U1 & _ & _ & _ & LC).
    pose proof (exp_pos (3 * N s)) as E. apply Rmult_le_pos; [lra|].
    assert (X : (d2V P L (phi s) * V P L (phi s) - (dV P L (phi s))^2) / (V P L (phi s))^2 <= 0).
    { unfold Rdiv. apply Rmult_le_0_r; [lra|]. left. apply Rinv_0_lt_compat. apply pow_lt. exact U1. }
    assert (Y : 0 <= H s * c s * - q s) by (repeat apply Rmult_le_pos; lra).
    replace (H s * c s * q s) with (- (H s * c s * - q s)) by ring. nra.
Qed.
Lemma f_gcont : cont_in g t0 t1.
Proof.
  intros s Hs. destruct (FL s ltac:(lra)) as (D1 & D2 & D3 & D4 & FR & HP & C). destruct (f_data s Hs) as (U1 & U2 & E1 & E2 & _).
  apply (ex_derive_continuous g). unfold g, lam. auto_derive. repeat split; try exd; lra.
Qed.
(** once the field has slowed down to the attractor there was a moment when it joined it *)
Lemma f_join z : t0 <= z <= t1 -> 0 <= g z -> exists r, t0 < r <= z /\ g r = 0 /\ forall s, t0 <= s <= r -> g s <= 0.
Proof.
  intros Hz G. assert (G0 : g t0 < 0) by (unfold g; lra).
  assert (CO : cont_in (fun s => - g s) t0 z) by (intros s Hs; apply (continuous_opp (V := R_NormedModule) g); apply f_gcont; lra).
  destruct (first_hit (fun s => - g s) t0 z 0 ltac:(lra) CO ltac:(lra) ltac:(lra)) as (r & Hr & Er & AB).
  exists r. split; [|split; [lra|intros s Hs; pose proof (AB s Hs); lra]].
  split; [|lra]. destruct (Req_dec r t0) as [E|]; [rewrite E in Er; lra|lra].
Qed.
Lemma f_v s : t0 <= s <= t1 -> v s <= - lam t0.
Proof.
  intros Hs. destruct (Rle_dec (g s) 0) as [G|G].
  - destruct (FL s ltac:(lra)) as (_ & _ & _ & _ & _ & HP & _). pose proof (f_lam s Hs). apply Rle_trans with (- lam s); [|lra]. unfold g in G. unfold v.
    apply Rmult_le_reg_r with (H s); [exact HP|]. replace (q s / H s * H s) with (q s) by (field; lra). lra.
  - destruct (f_join s Hs ltac:(lra)) as (r & Hr & Er & _). destruct (FL r ltac:(lra)) as (_ & _ & _ & _ & _ & HP & _).
    assert (X : q s / H s <= q r / H r).
    { apply (flow_rate phi q N H c (V P L) (dV P L) (d2V P L) r s); try lra.
      - intros u Hu. apply FL. lra.
      - intros u Hu. destruct (f_data u ltac:(lra)) as (_ & _ & A & B & _). split; assumption.
      - intros u Hu. destruct (f_data u ltac:(lra)) as (A & B & _). split; assumption.
      - intros u Hu. apply (f_data u ltac:(lra)).
      - split; [unfold g, lam in Er; lra|apply f_q; lra]. }
    unfold v. eapply Rle_trans; [exact X|]. pose proof (f_lam r ltac:(lra)). apply Rle_trans with (- lam r); [|lra]. right. unfold g in Er.
    apply Rmult_eq_reg_r with (H r); [|lra]. replace (q r / H r * H r) with (q r) by (field; lra). lra.
Qed.
Lemma f_upper : N t1 - N t0 < phi t0 / lam t0.
Proof.
  assert (M : phi t1 + lam t0 * N t1 <= phi t0 + lam t0 * N t0).
  { apply (mono_dn (fun s => phi s + lam t0 * N s) (fun s => c s * H s * (v s + lam t0))); [| |lra].
    - intros s Hs. destruct (FL s ltac:(lra)) as (D1 & _ & D3 & _ & _ & HP & _). evar_last; [auto_derive; [repeat split; exd|reflexivity]|]. undd. toR. unfold v. field. lra.
    - intros s Hs. destruct (FL s ltac:(lra)) as (_ & _ & _ & _ & _ & HP & C). pose proof (f_v s ltac:(lra)). assert (0 < c s * H s) by (apply Rmult_lt_0_compat; assumption). nra. }
  pose proof (f_pos t1 ltac:(lra)) as PP. pose proof (lam_pos _ B0) as LP. fold (lam t0) in LP.
  apply Rmult_lt_reg_r with (lam t0); [exact LP|]. replace (phi t0 / lam t0 * lam t0) with (phi t0) by (field; lra). lra.
Qed.
Lemma f_v2 s : t0 <= s <= t1 -> - sqrt 2 <= v s <= 0.
Proof.
  intros Hs. destruct (FL s ltac:(lra)) as (_ & _ & _ & _ & FR & HP & _). pose proof (f_q s Hs) as Q. pose proof (INF s Hs) as I.
  assert (S2 : sqrt 2 * sqrt 2 = 2) by (apply sqrt_sqrt; lra). assert (S0 : 0 < sqrt 2) by (apply sqrt_lt_R0; lra).
  assert (E : q s = v s * H s) by (unfold v; field; lra).
  assert (V0 : v s <= 0) by (unfold v; apply Rmult_le_reg_r with (H s); [exact HP|]; replace (q s / H s * H s) with (q s) by (field; lra); lra).
  split; [|exact V0].
  assert (X : (v s)^2 <= 2).
  { apply Rmult_le_reg_r with ((H s)^2); [apply pow_lt; exact HP|]. replace ((v s)^2 * (H s)^2) with ((q s)^2) by (rewrite E; ring). lra. }
  nra.
Qed.
(** while it is above the attractor the potential drops at most like exp(-2N) *)
Lemma f_Vfast r : t0 <= r <= t1 -> (forall s, t0 <= s <= r -> g s <= 0) -> V P L (phi t0) * exp (- 2 * (N r - N t0)) <= V P L (phi r).
Proof.
  intros Hr G. destruct (f_data r Hr) as (U1 & _). destruct (f_data t0 ltac:(lra)) as (U0 & _).
  assert (M : ln (V P L (phi t0)) + 2 * N t0 <= ln (V P L (phi r)) + 2 * N r).
  { apply (mono_up (fun s => ln (V P L (phi s)) + 2 * N s) (fun s => c s * H s * (lam s * v s + 2))); [| |lra].
    - intros s Hs. destruct (FL s ltac:(lra)) as (D1 & _ & D3 & _ & _ & HP & _). destruct (f_data s ltac:(lra)) as (W1 & _ & E1 & _).
      evar_last; [auto_derive; [repeat split; try exd; lra|reflexivity]|]. undd. toR. unfold lam, v. field. lra.
    - intros s Hs. destruct (FL s ltac:(lra)) as (_ & _ & _ & _ & _ & HP & C). assert (0 < c s * H s) by (apply Rmult_lt_0_compat; assumption).
      destruct (f_v2 s ltac:(lra)) as [A B]. pose proof (G s Hs) as Gs. destruct (f_branch s ltac:(lra)) as [_ Bs]. pose proof (lam_pos _ Bs) as LP. fold (lam s) in LP.
      assert (X : lam s <= - v s).
      { unfold g in Gs. apply Rmult_le_reg_r with (H s); [exact HP|]. replace (- v s * H s) with (- q s) by (unfold v; field; lra). lra. }
      assert (S2 : sqrt 2 * sqrt 2 = 2) by (apply sqrt_sqrt; lra). assert (Y : (v s)^2 <= 2) by nra. apply Rmult_le_pos; [lra|]. nra. }
  rewrite <- (exp_ln _ U1). rewrite <- (exp_ln (V P L (phi t0)) U0) at 1. rewrite <- exp_plus.
  assert (LN : ln (V P L (phi t0)) + -2 * (N r - N t0) <= ln (V P L (phi r))) by lra.
  destruct LN as [LN|LN]; [left; apply exp_increasing; exact LN|right; f_equal; exact LN].
Qed.
Lemma f_gle r z : t0 <= r -> r <= z -> z <= t1 -> g z <= 0 -> g r <= 0.
Proof. intros A1 A2 A3 G. pose proof (f_mono r z A1 A2 A3). pose proof (exp_pos (3 * N r)). pose proof (exp_pos (3 * N z)). nra. Qed.
Lemma f_N x z : t0 <= x <= z -> z <= t1 -> N x <= N z.
Proof.
  intros A B. apply (mono_up N (fun s => c s * H s)); [| |lra].
  - intros s Hs. apply (FL s ltac:(lra)).
  - intros s Hs. destruct (FL s ltac:(lra)) as (_ & _ & _ & _ & _ & HP & C). nra.
Qed.
Lemma f_V : (forall s, t0 < s <= t1 -> 0 < V P L (phi s) - (q s)^2) -> V P L (phi t0) * exp (- (1 + 2 * (N t1 - N t0))) <= V P L (phi t1).
Proof.
  intros STR. destruct (f_data t0 ltac:(lra)) as (U0 & _). destruct (Rle_dec (g t1) 0) as [G|G].
  - eapply Rle_trans; [|apply (f_Vfast t1 ltac:(lra)); intros s Hs; apply (f_gle s t1); lra].
    apply Rmult_le_compat_l; [lra|]. left. apply exp_increasing. lra.
  - destruct (f_join t1 ltac:(lra) ltac:(lra)) as (r & Hr & Er & AB).
    pose proof (f_Vfast r ltac:(lra) AB) as X. destruct (f_branch r ltac:(lra)) as [_ Br].
    assert (FLr : forall s, r <= s < b -> _) by (intros s Hs; exact (FL s ltac:(lra))).
    assert (STr : - H r * (dV P L (phi r) / V P L (phi r)) <= q r <= 0) by (split; [unfold g, lam in Er; lra|apply f_q; lra]).
    pose proof (end_V P L HF HV HL HD phi q N H c r b FLr Br STr t1 ltac:(lra) ltac:(intros s Hs; apply STR; lra)) as Y.
    eapply Rle_trans; [|exact Y]. eapply Rle_trans; [|apply Rmult_le_compat_r; [left; apply exp_pos|exact X] ].
    rewrite Rmult_assoc, <- exp_plus. right. do 2 f_equal. ring.
Qed.
(** the rate slows down before the field joins the attractor *)
Lemma f_slows x z : t0 <= x -> x <= z -> z <= t1 -> g z <= 0 -> v x <= v z.
Proof.
  intros A1 A2 A3 G.
  apply (mono_up v (fun s => - (c s * V P L (phi s) / (H s)^2 * g s))); [| |lra].
  - intros s Hs. destruct (FL s ltac:(lra)) as (D1 & D2 & D3 & D4 & FR & HP & C). destruct (f_data s ltac:(lra)) as (U1 & U2 & _). unfold v, g, lam.
    evar_last; [auto_derive; [repeat split; try exd; lra|reflexivity]|]. undd. toR.
    set (w := V P L (phi s)) in *. set (w1 := dV P L (phi s)) in *.
    assert (W : c s * (- q s ^ 2 / 2) = c s * (w - 3 * H s ^ 2)) by (rewrite FR; field).
    rewrite W. clearbody w w1. field. lra.
  - intros s Hs. destruct (FL s ltac:(lra)) as (_ & _ & _ & _ & _ & HP & C). destruct (f_data s ltac:(lra)) as (U1 & U2 & _).
    assert (0 <= c s * V P L (phi s) / (H s)^2) by (left; apply Rdiv_lt_0_compat; [apply Rmult_lt_0_compat; assumption|apply pow_lt; exact HP]).
    pose proof (f_gle s z ltac:(lra) ltac:(lra) A3 G). nra.
Qed.
(** at the end of inflation the field has passed the attractor *)
Lemma f_end : t0 < t1 -> (forall s, t0 < s < t1 -> 0 < V P L (phi s) - (q s)^2) -> V P L (phi t1) - (q t1)^2 = 0 -> 0 < g t1.
Proof.
  intros LT STR END. assert (S2 : sqrt 2 * sqrt 2 = 2) by (apply sqrt_sqrt; lra). assert (S0 : 0 < sqrt 2) by (apply sqrt_lt_R0; lra).
  apply Rnot_le_lt. intros G. set (p := (t0 + t1) / 2). assert (Hp : t0 < p < t1) by (unfold p; lra).
    pose proof (f_slows p t1 ltac:(lra) ltac:(lra) ltac:(lra) ltac:(lra)) as X. pose proof (STR p Hp) as I.
    destruct (FL p ltac:(lra)) as (_ & _ & _ & _ & FR & HP & _). destruct (FL t1 ltac:(lra)) as (_ & _ & _ & _ & FR1 & HP1 & _).
    destruct (f_v2 t1 ltac:(lra)) as [_ V0].
    assert (E : q p = v p * H p) by (unfold v; field; lra). assert (E1 : q t1 = v t1 * H t1) by (unfold v; field; lra).
    assert (Y : (v p)^2 < 2). { apply Rmult_lt_reg_r with ((H p)^2); [apply pow_lt; exact HP|]. replace ((v p)^2 * (H p)^2) with ((q p)^2) by (rewrite E; ring). lra. }
    assert (Z : (v t1)^2 = 2). { apply Rmult_eq_reg_r with ((H t1)^2); [|apply Rgt_not_eq, pow_lt; exact HP1]. replace ((v t1)^2 * (H t1)^2) with ((q t1)^2) by (rewrite E1; ring). lra. }
    nra.
Qed.
(** the number of e-folds until inflation ends, from below *)
Lemma f_lower e : t0 < t1 -> (forall s, t0 < s < t1 -> 0 < V P L (phi s) - (q s)^2) -> V P L (phi t1) - (q t1)^2 = 0 ->
  branch P e -> eps1V P e = 1 -> Nfun P e e = 0 -> Nfun P e (phi t0) - (sqrt 2 / lam t0 - 1) / 2 <= N t1 - N t0.
Proof.
  intros LT STR END Be Ee Ne. pose proof (lam_pos _ B0) as LP. fold (lam t0) in LP.
  assert (S2 : sqrt 2 * sqrt 2 = 2) by (apply sqrt_sqrt; lra). assert (S0 : 0 < sqrt 2) by (apply sqrt_lt_R0; lra).
  assert (G1 : 0 <= g t1) by (left; apply f_end; assumption).
  destruct (f_join t1 ltac:(lra) G1) as (r & Hr & Er & AB).
  assert (FP : Nfun P e (phi t0) - Nfun P e (phi r) - (v r - v t0) / (2 * lam t0) <= N r - N t0).
  { assert (M : N t0 + Nfun P e (phi t0) + v t0 / (2 * lam t0) <= N r + Nfun P e (phi r) + v r / (2 * lam t0)).
    { apply (mono_up (fun s => N s + Nfun P e (phi s) + v s / (2 * lam t0))
        (fun s => c s * H s * (1 + v s / lam s - (3 - (v s)^2 / 2) * (v s + lam s) / (2 * lam t0)))); [| |lra].
      - intros s Hs. destruct (FL s ltac:(lra)) as (D1 & D2 & D3 & D4 & FR & HP & C). destruct (f_data s ltac:(lra)) as (U1 & U2 & _). destruct (f_branch s ltac:(lra)) as [_ Bs].
        pose proof (Nfun_derive P L e (phi s) HF HV HL Bs) as DN. unfold v.
        evar_last; [auto_derive; [repeat split; try exd; lra|reflexivity]|]. undd. toR. unfold lam at 2 3 4 5 || idtac.
        set (l0 := lam t0) in *. unfold lam. set (w := V P L (phi s)) in *. set (w1 := dV P L (phi s)) in *.
        assert (W : w = 3 * H s ^ 2 - q s ^ 2 / 2) by lra. clearbody l0 w1. clearbody w.
        assert (VN : 3 * H s ^ 2 - q s ^ 2 / 2 <> 0) by lra. subst w. field. repeat split; lra.
      - intros s Hs. destruct (FL s ltac:(lra)) as (_ & _ & _ & _ & _ & HP & C). assert (CH : 0 < c s * H s) by (apply Rmult_lt_0_compat; assumption).
        destruct (f_v2 s ltac:(lra)) as [A B]. pose proof (AB s Hs) as Gs. pose proof (f_lam s ltac:(lra)) as LL.
        assert (X : 0 <= - (v s + lam s)).
        { unfold g in Gs. apply Rmult_le_reg_r with (H s); [exact HP|]. replace (- (v s + lam s) * H s) with (- (q s + H s * lam s)) by (unfold v; field; lra). lra. }
        assert (Y : (v s)^2 <= 2) by nra. apply Rmult_le_pos; [lra|].
        set (w := - (v s + lam s)) in *. replace (v s) with (- w - lam s) at 1 by (unfold w; ring). replace (v s + lam s) with (- w) by (unfold w; ring). clearbody w.
        replace (1 + (- w - lam s) / lam s - (3 - v s ^ 2 / 2) * - w / (2 * lam t0)) with (w * ((3 - v s ^ 2 / 2) / 2 * / lam t0 - / lam s)) by (field; lra).
        apply Rmult_le_pos; [exact X|]. assert (I1 : / lam s <= / lam t0) by (apply Rinv_le_contravar; lra). assert (I0 : 0 < / lam t0) by (apply Rinv_0_lt_compat; lra). nra. }
    lra. }
  destruct (f_v2 t0 ltac:(lra)) as [V0 _]. pose proof (f_v r ltac:(lra)) as VR.
  assert (DV : (v r - v t0) / (2 * lam t0) <= (sqrt 2 / lam t0 - 1) / 2).
  { apply Rmult_le_reg_r with (2 * lam t0); [lra|]. replace ((v r - v t0) / (2 * lam t0) * (2 * lam t0)) with (v r - v t0) by (field; lra).
    replace ((sqrt 2 / lam t0 - 1) / 2 * (2 * lam t0)) with (sqrt 2 - lam t0) by (field; lra). lra. }
  assert (SL : Nfun P e (phi r) <= N t1 - N r).
  { destruct (f_branch r ltac:(lra)) as [_ Br]. destruct (Rle_dec e (phi r)) as [LE|GT].
    - assert (FLr : forall s, r <= s < b -> _) by (intros s Hs; exact (FL s ltac:(lra))).
      assert (STr : - H r * (dV P L (phi r) / V P L (phi r)) <= q r <= 0) by (split; [unfold g, lam in Er; lra|apply f_q; lra]).
      apply (roll_lower P L HF HV HL HD phi q N H c r b FLr Br STr t1 e); try assumption; lra.
    - pose proof (Nfun_incr P e (phi r) e HF HV Br Be ltac:(lra)). pose proof (f_N r t1 ltac:(lra) ltac:(lra)). lra. }
  lra.
Qed.
End Fast.
