(** The end of a slow-roll run (SlowRollIC) in e-folds: inflation ends by a sign change, below the slow-roll end (used for C129). *)
From Coq Require Import Reals List String Lra Lia Classical.
From Coquelicot Require Import Coquelicot.
From Verif Require Import Base Model.Potentials Model.SlowRoll Model.Equations Model.Background Model.Float Model.Solution Model.InitCond
  Spec.PotentialSpec Spec.SlowRollSpec Spec.BackgroundSpec Spec.SolutionSpec Spec.ExactRun Proofs.PhiEnd Proofs.SRN Proofs.Bracket Proofs.BackgroundT Proofs.BackgroundN Proofs.BackgroundTN Proofs.BackgroundEx Proofs.FloatLemmas Proofs.Unique
  Proofs.SlowRollBound Proofs.Roll Proofs.RollEnd Proofs.FastRoll Proofs.StartCont Properties.UniqueProps Properties.SlowRollBoundProps Properties.InflationEndsProps Properties.StartEndsProps.
Import ListNotations.
Open Scope R_scope.

Section Run.
Variables (P : pot) (L e : R) (tm te : bool).
Let U := potfun_of P L.
Hypotheses (HF : featureless P) (HV : valid P) (HL : L <> 0) (HD : dw_ge1 P).
Hypotheses (Be : branch P e) (Ee : eps1V P e = 1).
Let lam (x : R) := dV P L x / V P L x.
Variables (phi_i v_i N_i E : R) (y : R -> list R) (a b : R).
Hypotheses (HB : branch P phi_i) (LE : e < phi_i) (VI : - lam phi_i <= v_i < 0).
Hypotheses (B : N_background 0 U tm te y a b) (A1 : a < N_i < E) (A2 : E < b).
Let p := N_phi tm te y.
Let v := N_dphi tm te y.
Hypotheses (E1 : p N_i = phi_i) (E2 : v N_i = v_i).
Hypotheses (I1 : forall n, N_i <= n < E -> 0 < N_inflating 0 U tm te n (y n)) (Z : N_inflating 0 U tm te E (y E) = 0).
Let eta := V P L phi_i * exp (- (1 + 2 * (phi_i / - v_i))).

Lemma sr_stay n : N_i <= n <= E -> branch P (p n) /\ p n <= phi_i /\ - sqrt 2 <= v n <= 0.
Proof.
  assert (BE : N_background 0 U tm te y a E) by (apply (N_restrict 0 U tm te y a b); [exact B|lra|lra]).
  assert (ST : forall m, N_i <= m < E -> 0 < p m <= phi_i /\ - sqrt 2 <= v m <= 0 /\ eta <= V P L (p m)).
  { intros m Hm. exact (proj2 (run_stay P L tm te HF HV HL HD phi_i v_i N_i (y N_i) HB E1 E2 VI y a E BE ltac:(lra) eq_refl I1 m Hm)). }
  destruct (flat_flow P L tm te y a b B E ltac:(lra)) as (D1 & D2). cbv zeta in D2.
  assert (C1 : continuous p E) by (apply (ex_derive_continuous p); eexists; exact D1).
  assert (C2 : continuous v E) by (apply (ex_derive_continuous v); eexists; exact D2).
  assert (UPB : p E <= phi_i).
  { apply Ropp_le_cancel. apply (limit_ge (fun s => - p s) N_i E (- phi_i)); [lra|apply (continuous_opp (V := R_NormedModule) p); exact C1|]. intros s Hs. destruct (ST s Hs). lra. }
  assert (V1 : - sqrt 2 <= v E) by (apply (limit_ge v N_i E); [lra|exact C2|intros s Hs; apply (ST s Hs)]).
  assert (V2 : v E <= 0).
  { apply Ropp_le_cancel. rewrite Ropp_0. apply (limit_ge (fun s => - v s) N_i E 0); [lra|apply (continuous_opp (V := R_NormedModule) v); exact C2|]. intros s Hs. destruct (ST s Hs) as (_ & X & _). lra. }
  destruct (branch_room P HF HV HD phi_i HB) as (r & Hr & RM).
  assert (P0 : 0 < p E).
  { destruct (V_small P L eta HF HV HD HL) as (d0 & Hd0 & SMALL).
    { destruct (branch_pos P L phi_i HF HV HL HB). apply Rmult_lt_0_compat; [assumption|apply exp_pos]. }
    assert (d0 / 2 <= p E); [|lra]. apply (limit_ge p N_i E); [lra|exact C1|]. intros s Hs. destruct (ST s Hs) as (X & _ & Y).
    destruct (Rlt_dec (p s) d0) as [Q|Q]; [|lra]. pose proof (SMALL (p s) ltac:(lra)). lra. }
  intros Hn. destruct (Req_dec n E) as [->|NE].
  - split; [apply RM; lra|]. split; [exact UPB|lra].
  - destruct (ST n ltac:(lra)) as (X & Y & Q). split; [apply RM; lra|]. split; [lra|exact Y].
Qed.
Lemma sr_end : v E = - sqrt 2 /\ sqrt 2 < lam (p E) /\ p E < e.
Proof.
  assert (S2 : sqrt 2 * sqrt 2 = 2) by (apply sqrt_sqrt; lra). assert (S0 : 0 < sqrt 2) by (apply sqrt_lt_R0; lra).
  destruct (sr_stay E ltac:(lra)) as (Bp & _ & Hv).
  assert (VE : v E = - sqrt 2).
  { destruct (flat_infl P L tm te y a b B E ltac:(lra)) as (h2 & HH2 & Q). fold U in Q. rewrite Z in Q. fold v in Q. set (x := v E) in *. clearbody x.
    assert (x^2 = 2) by nra. nra. }
  assert (PE : p E < e).
  { apply Rnot_le_lt. intros X.
    assert (FL : forall s, N_i <= s <= E -> is_derive p s (v s) /\ is_derive v s (- (3 - v s ^ 2 / 2) * (v s + lam (p s)))) by (intros s Hs; exact (flat_flow P L tm te y a b B s ltac:(lra))).
    (* before the end the field is above e, where the slope of the potential is gentle *)
    assert (LM : forall s, N_i <= s <= E -> lam (p s) <= sqrt 2).
    { intros s Hs. destruct (sr_stay s Hs) as (Bs & _ & _).
      assert (GE : e <= p s).
      { apply Rle_trans with (p E); [exact X|]. apply Ropp_le_cancel. apply (mono_up (fun t => - p t) (fun t => - v t)); [| |lra].
        - intros t Ht. apply (@is_derive_opp R_AbsRing R_NormedModule). apply (FL t). lra.
        - intros t Ht. destruct (sr_stay t ltac:(lra)) as (_ & _ & Q). lra. }
      rewrite <- (lam_e P L e HF HV HL Be Ee). destruct (Req_dec (p s) e) as [->|NE]; [apply Rle_refl|]. left. apply (lam_lt_iff P L HF HV HL HD e (p s) Be Bs). lra. }
    (* so the speed cannot come up to sqrt 2 *)
    assert (G : (v N_i + sqrt 2) * exp (3 * N_i) <= (v E + sqrt 2) * exp (3 * E)).
    { apply (mono_up (fun t => (v t + sqrt 2) * exp (3 * t)) (fun t => (- (3 - v t ^ 2 / 2) * (v t + lam (p t)) + 3 * (v t + sqrt 2)) * exp (3 * t))); [| |lra].
      - intros t Ht. destruct (FL t Ht) as (_ & D). evar_last; [apply (is_derive_mult (fun t => v t + sqrt 2) (fun t => exp (3 * t))); [apply (@is_derive_plus R_AbsRing R_NormedModule); [exact D|apply is_derive_const]|auto_derive; [exact I|reflexivity]|intros; apply Rmult_comm]|].
        cbn. toR. ring.
      - intros t Ht. pose proof (LM t Ht) as W. destruct (sr_stay t Ht) as (Bs & _ & Q). pose proof (lam_pos P L HF HV HL (p t) Bs) as LP. fold (lam (p t)) in LP. pose proof (exp_pos (3 * t)) as EP.
        apply Rmult_le_pos; [|lra]. set (l := lam (p t)) in *. set (x := v t) in *. clearbody l x. assert (0 <= x^2 <= 2) by nra.
        assert (- (3 - x^2 / 2) * (x + l) >= - (3 - x^2/2) * (x + sqrt 2)) by nra. nra. }
    rewrite VE in G. replace (- sqrt 2 + sqrt 2) with 0 in G by ring. rewrite Rmult_0_l in G. pose proof (exp_pos (3 * N_i)).
    assert (v N_i <= - sqrt 2) by nra.
    destruct (flat_infl P L tm te y a b B N_i ltac:(lra)) as (h2 & HH2 & Q). pose proof (I1 N_i ltac:(lra)) as I1'. fold U in Q. rewrite Q in I1'. fold v in I1'. set (x := v N_i) in *. clearbody x. assert (x^2 < 2) by nra. nra. }
  split; [exact VE|]. split; [|exact PE]. rewrite <- (lam_e P L e HF HV HL Be Ee). apply (lam_lt_iff P L HF HV HL HD (p E) e Bp Be PE).
Qed.
End Run.

(** inflation ends by a sign change when the field has gone below e *)
Lemma end_falls P L tm te y a b N_i E : N_background 0 (potfun_of P L) tm te y a b -> a < N_i < E -> E < b ->
  (forall n, N_i < n < E -> 0 < N_inflating 0 (potfun_of P L) tm te n (y n)) -> N_inflating 0 (potfun_of P L) tm te E (y E) = 0 ->
  N_dphi tm te y E = - sqrt 2 -> sqrt 2 < dV P L (N_phi tm te y E) / V P L (N_phi tm te y E) ->
  falls_through (fun s => N_inflating 0 (potfun_of P L) tm te s (y s)) E.
Proof.
  intros B A1 A2 I1 Z VE LM.
  assert (S2 : sqrt 2 * sqrt 2 = 2) by (apply sqrt_sqrt; lra). assert (S0 : 0 < sqrt 2) by (apply sqrt_lt_R0; lra).
  destruct (flat_flow P L tm te y a b B E ltac:(lra)) as (_ & D2). cbv zeta in D2. rewrite VE in D2. set (lm := dV P L (N_phi tm te y E) / V P L (N_phi tm te y E)) in *.
  assert (SQ : (- sqrt 2)^2 = 2) by (replace ((- sqrt 2)^2) with (sqrt 2 * sqrt 2) by ring; exact S2). rewrite SQ in D2.
  assert (D3 : is_derive (fun s => - N_dphi tm te y s - sqrt 2) E (2 * (lm - sqrt 2))).
  { pose proof (is_derive_sub (fun s => - N_dphi tm te y s) (fun _ => sqrt 2) E _ 0 (@is_derive_opp R_AbsRing R_NormedModule _ _ _ D2) (is_derive_const (sqrt 2) E)) as D4.
    eapply is_derive_eq; [exact D4|]. cbn. toR. field. }
  assert (DZ : - N_dphi tm te y E - sqrt 2 = 0) by (rewrite VE; ring).
  destruct (crosses (fun s => - N_dphi tm te y s - sqrt 2) E _ D3 ltac:(lra) DZ) as (d & Hd & BEF & AFT). cbv beta in BEF, AFT.
  split; [cbv beta; rewrite Z; ring|]. exists (Rmin d (Rmin (E - N_i) (b - E))).
  pose proof (Rmin_l d (Rmin (E - N_i) (b - E))). pose proof (Rmin_r d (Rmin (E - N_i) (b - E))). pose proof (Rmin_l (E - N_i) (b - E)). pose proof (Rmin_r (E - N_i) (b - E)).
  split; [repeat apply Rmin_glb_lt; lra|]. intros s. split; intros Hs.
  - pose proof (I1 s ltac:(lra)). lra.
  - destruct (flat_infl P L tm te y a b B s ltac:(lra)) as (h2 & HH2 & Q). rewrite Q. pose proof (AFT s ltac:(lra)) as X. set (v := N_dphi tm te y s) in *. clearbody v.
    assert (2 < v^2) by nra. nra.
Qed.
