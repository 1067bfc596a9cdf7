(** How long inflation lasts after the start written by InflationStartIC depends continuously on the starting field
    (flat universe; used for C126). *)
From Coq Require Import Reals List String Lra Lia Classical.
From Coquelicot Require Import Coquelicot.
From Verif Require Import Base Model.Potentials Model.SlowRoll Model.Equations Model.Background Model.Float Model.Solution Model.InitCond
  Spec.PotentialSpec Spec.SlowRollSpec Spec.BackgroundSpec Proofs.PhiEnd Proofs.SRN Proofs.Bracket Proofs.BackgroundT Proofs.BackgroundN Proofs.BackgroundEx Proofs.FloatLemmas Proofs.Unique
  Proofs.SlowRollBound Proofs.Roll Proofs.RollEnd Proofs.FastRoll Properties.BackgroundProps Properties.InitProps Properties.UniqueProps Properties.SlowRollBoundProps Properties.ExistenceProps Properties.InflationEndsProps
  Properties.StartEndsProps.
Import ListNotations.
Open Scope R_scope.

(** two solutions of phi' = v, v' = -(3 - v^2/2)(v + lam phi) in a bounded region separate at most exponentially *)
Lemma close2 (lam dlam : R -> R) m M W A Bd : 0 <= W -> (forall x, m <= x <= M -> is_derive lam x (dlam x)) ->
  (forall x, m <= x <= M -> Rabs (dlam x) <= A) -> (forall x, m <= x <= M -> Rabs (lam x) <= Bd) -> m <= M ->
  exists C, 0 <= C /\ forall (p1 v1 p2 v2 : R -> R) c d, c <= d ->
    (forall s, c <= s <= d -> is_derive p1 s (v1 s) /\ is_derive v1 s (- (3 - (v1 s)^2 / 2) * (v1 s + lam (p1 s))) /\ m <= p1 s <= M /\ Rabs (v1 s) <= W) ->
    (forall s, c <= s <= d -> is_derive p2 s (v2 s) /\ is_derive v2 s (- (3 - (v2 s)^2 / 2) * (v2 s + lam (p2 s))) /\ m <= p2 s <= M /\ Rabs (v2 s) <= W) ->
    forall t, c <= t <= d -> (p1 t - p2 t)^2 + (v1 t - v2 t)^2 <= ((p1 c - p2 c)^2 + (v1 c - v2 c)^2) * exp (C * (t - c)).
Proof.
  intros W0 D DA DB MM. assert (A0 : 0 <= A) by (eapply Rle_trans; [apply Rabs_pos|apply (DA m); lra]). assert (B0 : 0 <= Bd) by (eapply Rle_trans; [apply Rabs_pos|apply (DB m); lra]).
  set (K := 1 + 3 + 3 * W^2 / 2 + Bd * W + (3 + W^2 / 2) * A). pose proof (pow2_ge_0 W) as WW.
  assert (BW : 0 <= Bd * W) by (apply Rmult_le_pos; assumption). assert (WA : 0 <= (3 + W^2 / 2) * A) by (apply Rmult_le_pos; lra).
  assert (K0 : 0 <= K) by (unfold K; lra). exists (6 * K). split; [lra|].
  intros p1 v1 p2 v2 c d L S1 S2 t Ht.
  pose proof (stays_zero3 (fun s => p1 s - p2 s) (fun s => v1 s - v2 s) (fun _ => 0) (fun s => v1 s - v2 s)
    (fun s => - (3 - (v1 s)^2 / 2) * (v1 s + lam (p1 s)) - (- (3 - (v2 s)^2 / 2) * (v2 s + lam (p2 s)))) (fun _ => 0) c d K c ltac:(lra)) as G.
  cbv beta in G. replace (t - c) with (Rabs (t - c)) by (apply Rabs_right; lra).
  replace ((p1 t - p2 t)^2 + (v1 t - v2 t)^2) with ((p1 t - p2 t)^2 + (v1 t - v2 t)^2 + 0^2) by ring.
  replace ((p1 c - p2 c)^2 + (v1 c - v2 c)^2) with ((p1 c - p2 c)^2 + (v1 c - v2 c)^2 + 0^2) by ring.
  apply G; [| exact K0| |exact Ht].
  - intros s Hs. destruct (S1 s Hs) as (D1 & D2 & _). destruct (S2 s Hs) as (E1 & E2 & _). split; [|split].
    + apply (is_derive_minus p1 p2 s _ _ D1 E1).
    + apply (is_derive_minus v1 v2 s _ _ D2 E2).
    + apply (is_derive_const 0 s).
  - intros s Hs. destruct (S1 s Hs) as (_ & _ & P1 & W1). destruct (S2 s Hs) as (_ & _ & P2 & W2). cbv zeta. rewrite Rabs_R0, Rplus_0_r.
    pose proof (Rabs_pos (p1 s - p2 s)) as X. pose proof (Rabs_pos (v1 s - v2 s)) as Y.
    assert (K1 : 1 <= K) by (unfold K; lra).
    split; [nra|split; [|apply Rmult_le_pos; lra] ].
    destruct (slope lam dlam m M A D DA (p1 s) (p2 s) P1 P2) as (u & Bu & Eu).
    set (x := v1 s) in *. set (z := v2 s) in *. set (l1 := lam (p1 s)) in *. pose proof (DB _ P2) as LB. set (l2 := lam (p2 s)) in *. set (dp := p1 s - p2 s) in *. clearbody x z l1 l2 dp.
    replace (- (3 - x^2 / 2) * (x + l1) - (- (3 - z^2 / 2) * (z + l2)))
      with ((-3 + (x*x + x*z + z*z) / 2 + l2 * (x + z) / 2) * (x - z) + (- (3 - x^2 / 2) * u) * dp).
    2: { replace l1 with (l2 + u * dp) by lra. field. }
    assert (T1 : bd ((-3 + (x*x + x*z + z*z) / 2 + l2 * (x + z) / 2)) (3 + 3 * W^2 / 2 + Bd * W)).
    { apply bd_le with (3 + (W*W + W*W + W*W) * / 2 + Bd * (W + W) * / 2); [|right; field].
      assert (HH : bd (/2) (/2)) by (unfold bd; rewrite Rabs_right; lra). assert (H3 : bd (-3) 3) by (unfold bd; rewrite Rabs_left; lra).
      apply bd_plus; [apply bd_plus; [exact H3|] |]; apply bd_mult; try exact HH.
      - apply bd_plus; [apply bd_plus|]; apply bd_mult; assumption.
      - apply bd_mult; [exact LB|apply bd_plus; assumption]. }
    assert (T2 : bd (- (3 - x^2 / 2) * u) ((3 + W^2 / 2) * A)).
    { apply bd_mult; [|exact Bu]. apply bd_opp. apply bd_minus; [unfold bd; rewrite Rabs_right; lra|].
      apply bd_mult; [|unfold bd; rewrite Rabs_right; lra]. replace (x^2) with (x*x) by ring. replace (W^2) with (W*W) by ring. apply bd_mult; assumption. }
    eapply Rle_trans; [apply bd_plus; apply bd_mult; [exact T1|apply bd_refl|exact T2|apply bd_refl]|].
    unfold K. set (q1 := 3 + 3 * W ^ 2 / 2 + Bd * W). set (q2 := (3 + W ^ 2 / 2) * A) in *. assert (Q1 : 0 <= q1) by (unfold q1; lra).
    replace (1 + 3 + 3 * W ^ 2 / 2 + Bd * W + q2) with (1 + q1 + q2) by (unfold q1; ring). clearbody q1 q2. nra.
Qed.

(** the flat equations in e-folds *)
Section Flat.
Variables (P : pot) (L : R) (tm te : bool) (y : R -> list R) (a b : R).
Hypothesis B : N_background 0 (potfun_of P L) tm te y a b.
Lemma flat_flow n : a < n < b -> let v := N_dphi tm te y n in
  is_derive (N_phi tm te y) n v /\ is_derive (N_dphi tm te y) n (- (3 - v^2 / 2) * (v + dV P L (N_phi tm te y n) / V P L (N_phi tm te y n))).
Proof.
  intros Hn v. destruct (N_comps 0 (potfun_of P L) tm te y a b B n Hn) as (D1 & D2 & _). split; [exact D1|].
  pose proof (N_d2phi_eq 0 _ tm te y a b B n Hn) as E. pose proof (N_V 0 _ tm te y a b B n Hn) as EV. destruct (N_pos 0 _ tm te y a b B n Hn) as (HP & _ & H6).
  eapply is_derive_eq; [exact D2|]. rewrite E. unfold N_dH, N_get_dH. cbn [potfun_of pV pdV] in *. fold v in EV, H6 |- *. set (h := N_Hub 0 (potfun_of P L) tm te y n) in *.
  assert (W : V P L (N_phi tm te y n) = h^2 * (6 - v^2) / 2) by lra. rewrite W. toR. field. repeat split; lra.
Qed.
Lemma flat_infl n : a < n < b -> exists h2, 0 < h2 /\ N_inflating 0 (potfun_of P L) tm te n (y n) = h2 * (2 - (N_dphi tm te y n)^2).
Proof.
  intros Hn. pose proof (N_V 0 _ tm te y a b B n Hn) as EV. destruct (N_pos 0 _ tm te y a b B n Hn) as (HP & _ & H6).
  exists (3 / 2 * (N_Hub 0 (potfun_of P L) tm te y n)^2). split; [pose proof (pow_lt _ 2 HP); lra|].
  rewrite (run_infl P L tm te y a b B n Hn). cbn [potfun_of pV] in EV. rewrite EV. field.
Qed.
End Flat.

Lemma sq_lt_abs D u : - u < D < u -> D^2 < u^2.
Proof. intros H. nra. Qed.
Lemma mul_ge x c : 0 <= x -> 1 <= c -> x <= x * c.
Proof. intros H K. nra. Qed.
Lemma sq_absurd k u : 0 < k -> k <= u -> u^2 < k^2 -> False.
Proof. intros H K Q. nra. Qed.
(** a continuous function that stays above a bound before a point is not below it there *)
Lemma limit_ge (f : R -> R) c x k : c < x -> continuous f x -> (forall s, c <= s < x -> k <= f s) -> k <= f x.
Proof.
  intros L C Q. destruct (Rle_dec k (f x)) as [|N]; [assumption|]. exfalso.
  assert (CP : continuity_pt f x) by (apply continuity_pt_filterlim; exact C).
  destruct (CP (k - f x) ltac:(lra)) as (d & Hd & X). cbn in X. set (s := Rmax c (x - d / 2)).
  assert (S1 : c <= s < x) by (unfold s; split; [apply Rmax_l|apply Rmax_lub_lt; lra]). assert (S2 : x - d / 2 <= s) by apply Rmax_r.
  specialize (X s). assert (Y : R_dist (f s) (f x) < k - f x).
  { apply X. split; [split; [exact I|lra]|]. unfold R_dist. rewrite Rabs_left; lra. }
  unfold R_dist in Y. apply Rabs_def2 in Y. pose proof (Q s S1). lra.
Qed.

(** inflation from the state phi, dphi/dN = - sqrt 2 at N_i goes on without a break for M e-folds and then stops *)
Definition lasts (P : pot) (L N_i phi M : R) : Prop := 0 < M /\ exists y a b, N_background 0 (potfun_of P L) false false y a b /\ a < N_i /\ N_i + M < b /\
  y N_i = [phi; - sqrt 2] /\ (forall n, N_i < n < N_i + M -> 0 < N_inflating 0 (potfun_of P L) false false n (y n)) /\
  N_inflating 0 (potfun_of P L) false false (N_i + M) (y (N_i + M)) = 0.

Section Dep.
Variables (P : pot) (L e N_i : R).
Let U := potfun_of P L.
Hypotheses (HF : featureless P) (HV : valid P) (HL : L <> 0) (HD : dw_ge1 P).
Hypotheses (Be : branch P e) (Ee : eps1V P e = 1).
Let lam (x : R) := dV P L x / V P L x.

Lemma lasts_ex phi : Nfun P e e = 0 -> branch P phi -> e < phi -> exists M, lasts P L N_i phi M.
Proof.
  intros Ne HB LE. pose proof (lam_lt P L HF HV HL HD phi e HB Be Ee LE) as LM.
  destruct (st_core P L false false HF HV HL HD phi N_i [phi; - sqrt 2] HB eq_refl eq_refl LM e Be Ee Ne eq_refl) as (y & a & b & N_end & A1 & A2 & B & Ey & I1 & I2 & I3 & Z & _).
  exists (N_end - N_i). split; [lra|]. exists y, a, b. replace (N_i + (N_end - N_i)) with N_end by ring. split; [exact B|]. split; [lra|]. split; [lra|]. split; [exact Ey|]. split; [exact I3|exact Z].
Qed.
Lemma lasts_uniq phi M M' : lasts P L N_i phi M -> lasts P L N_i phi M' -> M = M'.
Proof.
  assert (W : forall M M', lasts P L N_i phi M -> lasts P L N_i phi M' -> M' <= M).
  { intros M1 M2 (H0 & y & a & b & B & A1 & A2 & Ey & I1 & Z) (H0' & y' & a' & b' & B' & A1' & A2' & Ey' & I1' & Z').
    destruct (Rle_dec M2 M1) as [|X]; [assumption|]. exfalso.
    pose proof (C110_efolds 0 U false false y y' a b a' b' N_i B B' ltac:(lra) ltac:(lra) ltac:(congruence) (N_i + M1) ltac:(lra) ltac:(lra)) as E.
    pose proof (I1' (N_i + M1) ltac:(lra)) as J. rewrite <- E, Z in J. lra. }
  intros A B. apply Rle_antisym; apply W; assumption.
Qed.
Lemma lam_lt_iff x z : branch P x -> branch P z -> x < z -> lam z < lam x.
Proof.
  intros Bx Bz H. pose proof (eps1_decr P x z HF HV HD Bx Bz H) as Q. pose proof (branch_lam2 P L HF HV HL x Bx) as W1. pose proof (branch_lam2 P L HF HV HL z Bz) as W2.
  pose proof (lam_pos P L HF HV HL x Bx) as X1. pose proof (lam_pos P L HF HV HL z Bz) as X2. fold (lam x) in *. fold (lam z) in *. nra.
Qed.
Lemma lam_e : lam e = sqrt 2.
Proof.
  pose proof (branch_lam2 P L HF HV HL e Be) as W. pose proof (lam_pos P L HF HV HL e Be) as X. fold (lam e) in *. rewrite Ee in W.
  rewrite <- (sqrt_pow2 (lam e)) by lra. f_equal. lra.
Qed.

Section Data.
Variables (phi M : R) (y : R -> list R) (a b : R).
Hypotheses (HB : branch P phi) (LE : e < phi) (M0 : 0 < M) (B : N_background 0 U false false y a b) (A1 : a < N_i) (A2 : N_i + M < b)
  (Ey : y N_i = [phi; - sqrt 2]) (I1 : forall n, N_i < n < N_i + M -> 0 < N_inflating 0 U false false n (y n)) (Z : N_inflating 0 U false false (N_i + M) (y (N_i + M)) = 0).
Let p := N_phi false false y.
Let v := N_dphi false false y.
Lemma ld_stay n : N_i <= n <= N_i + M -> branch P (p n) /\ p n <= phi /\ - sqrt 2 <= v n <= 0 /\ V P L phi * exp (- (1 + 2 * (phi / lam phi))) <= V P L (p n).
Proof.
  pose proof (lam_lt P L HF HV HL HD phi e HB Be Ee LE) as LM. fold (lam phi) in LM.
  assert (E1 : var (N_idx false false) "phi" [phi; - sqrt 2] = phi) by reflexivity. assert (E2 : var (N_idx false false) "dphidN" [phi; - sqrt 2] = - sqrt 2) by reflexivity.
  assert (ST : forall n, N_i <= n < N_i + M -> 0 < p n <= phi /\ - sqrt 2 <= v n <= 0 /\ V P L phi * exp (- (1 + 2 * (phi / lam phi))) <= V P L (p n)).
  { intros m Hm. destruct (st_stay P L false false HF HV HL HD phi N_i _ HB E1 E2 LM y a b B ltac:(lra) Ey m ltac:(lra)) as (_ & X & Y & Q); [|split; [exact X|split; [exact Y|exact Q] ] ].
    intros s Hs. apply I1. lra. }
  assert (CP : forall m, a < m < b -> continuous p m /\ continuous v m /\ smooth_pot U (p m)).
  { intros m Hm. destruct (flat_flow P L false false y a b B m Hm) as (D1 & D2). destruct (proj2 B m Hm) as (_ & _ & SM & _).
    split; [apply (ex_derive_continuous p); eexists; exact D1|]. split; [apply (ex_derive_continuous v); eexists; exact D2|]. apply (N_smooth 0 U false false y a b B m Hm). }
  destruct (CP (N_i + M) ltac:(lra)) as (C1 & C2 & SM).
  assert (UPB : p (N_i + M) <= phi).
  { apply Ropp_le_cancel. apply (limit_ge (fun s => - p s) N_i (N_i + M) (- phi)); [lra|apply (continuous_opp (V := R_NormedModule) p); exact C1|]. intros s Hs. destruct (ST s Hs). lra. }
  assert (V1 : - sqrt 2 <= v (N_i + M)) by (apply (limit_ge v N_i (N_i + M)); [lra|exact C2|intros s Hs; apply (ST s Hs)]).
  assert (V2 : v (N_i + M) <= 0).
  { apply Ropp_le_cancel. rewrite Ropp_0. apply (limit_ge (fun s => - v s) N_i (N_i + M) 0); [lra|apply (continuous_opp (V := R_NormedModule) v); exact C2|]. intros s Hs. destruct (ST s Hs) as (_ & X & _). lra. }
  assert (V3 : V P L phi * exp (- (1 + 2 * (phi / lam phi))) <= V P L (p (N_i + M))).
  { apply (limit_ge (fun s => V P L (p s)) N_i (N_i + M)); [lra| |intros s Hs; apply (ST s Hs)].
    apply (continuous_comp p (V P L)); [exact C1|]. destruct SM as (SM & _). apply (ex_derive_continuous (V P L)). eexists. exact SM. }
  assert (FIN : forall m, N_i <= m <= N_i + M -> 0 < p m -> branch P (p m) /\ p m <= phi -> branch P (p m)) by tauto.
  destruct (branch_room P HF HV HD phi HB) as (r & Hr & RM).
  assert (P0 : 0 < p (N_i + M)).
  { destruct (V_small P L (V P L phi * exp (- (1 + 2 * (phi / lam phi)))) HF HV HD HL) as (d0 & Hd0 & SMALL).
    { destruct (branch_pos P L phi HF HV HL HB). apply Rmult_lt_0_compat; [assumption|apply exp_pos]. }
    assert (d0 / 2 <= p (N_i + M)); [|lra]. apply (limit_ge p N_i (N_i + M)); [lra|exact C1|]. intros s Hs. destruct (ST s Hs) as (X & _ & Y).
    destruct (Rlt_dec (p s) d0) as [Q|Q]; [|lra]. pose proof (SMALL (p s) ltac:(lra)). lra. }
  intros Hn. destruct (Req_dec n (N_i + M)) as [->|NE].
  - split; [apply RM; lra|]. split; [exact UPB|]. split; [lra|exact V3].
  - destruct (ST n ltac:(lra)) as (X & Y & Q). split; [apply RM; lra|]. split; [lra|]. split; [exact Y|exact Q].
Qed.
Lemma ld_end : v (N_i + M) = - sqrt 2 /\ sqrt 2 < lam (p (N_i + M)) /\ p (N_i + M) < e.
Proof.
  assert (S2 : sqrt 2 * sqrt 2 = 2) by (apply sqrt_sqrt; lra). assert (S0 : 0 < sqrt 2) by (apply sqrt_lt_R0; lra).
  destruct (ld_stay (N_i + M) ltac:(lra)) as (Bp & _ & Hv & _).
  assert (VE : v (N_i + M) = - sqrt 2).
  { destruct (flat_infl P L false false y a b B (N_i + M) ltac:(lra)) as (h2 & H2 & E). fold U in E. rewrite Z in E. fold v in E. set (x := v (N_i + M)) in *. clearbody x.
    assert (x^2 = 2) by nra. nra. }
  split; [exact VE|].
  assert (LM : sqrt 2 < lam (p (N_i + M))).
  { assert (E1 : var (N_idx false false) "phi" [phi; - sqrt 2] = phi) by reflexivity. assert (E2 : var (N_idx false false) "dphidN" [phi; - sqrt 2] = - sqrt 2) by reflexivity.
    pose proof (lam_lt P L HF HV HL HD phi e HB Be Ee LE) as LM. fold (lam phi) in LM.
    set (q := fun s => N_Hub 0 U false false y s * N_dphi false false y s).
    assert (RI : forall s, a < s < b -> N_inflating 0 U false false s (y s) = V P L (N_phi false false y s) - (q s)^2) by (intros s Hs; exact (run_infl P L false false y a b B s Hs)).
    pose proof (st_infl0 P L false false phi N_i _ E1 E2 y a b B ltac:(lra) Ey) as Z0.
    pose proof (f_end P L HF HV HL HD (N_phi false false y) q (fun x => x) (N_Hub 0 U false false y) (fun s => / N_Hub 0 U false false y s) N_i b (st_flow P L false false N_i y a b B ltac:(lra))
      (st_B0 P false false phi N_i _ HB E1 E2 y Ey) (st_fast P L false false phi N_i _ E1 E2 LM y a b B ltac:(lra) Ey) (N_i + M) ltac:(lra)) as G.
    assert (G' : 0 < q (N_i + M) + N_Hub 0 U false false y (N_i + M) * lam (p (N_i + M))).
    { apply G; [|lra| |rewrite <- RI by lra; exact Z].
      - intros s Hs. destruct (Req_dec s N_i) as [->|N1]; [right; symmetry; exact Z0|]. destruct (Req_dec s (N_i + M)) as [->|N2]; [right; rewrite <- RI by lra; symmetry; exact Z|]. left. rewrite <- RI by lra. apply I1. lra.
      - intros s Hs. rewrite <- RI by lra. apply I1. lra. }
    destruct (N_pos 0 U false false y a b B (N_i + M) ltac:(lra)) as (HP & _). unfold q in G'. fold v in G'. rewrite VE in G'. nra. }
  split; [exact LM|]. destruct (Rlt_dec (p (N_i + M)) e) as [|N]; [assumption|]. exfalso. destruct (Req_dec (p (N_i + M)) e) as [E|NE]; [rewrite E, lam_e in LM; lra|].
  pose proof (lam_lt_iff e (p (N_i + M)) Be Bp ltac:(lra)). rewrite lam_e in *. lra.
Qed.
(** a lower bound on the duration *)
Lemma ld_gap : (phi - e) / sqrt 2 <= M.
Proof.
  assert (S2 : sqrt 2 * sqrt 2 = 2) by (apply sqrt_sqrt; lra). assert (S0 : 0 < sqrt 2) by (apply sqrt_lt_R0; lra).
  destruct ld_end as (_ & _ & PE).
  assert (X : p N_i + sqrt 2 * N_i <= p (N_i + M) + sqrt 2 * (N_i + M)).
  { apply (mono_up (fun s => p s + sqrt 2 * s) (fun s => v s + sqrt 2)); [| |lra].
    - intros s Hs. destruct (flat_flow P L false false y a b B s ltac:(lra)) as (D1 & _). evar_last; [apply (is_derive_plus p (fun s => sqrt 2 * s)); [exact D1|auto_derive; [exact I|reflexivity] ]|]. cbn. toR. unfold v. cbn. ring.
    - intros s Hs. destruct (ld_stay s Hs) as (_ & _ & Hv & _). lra. }
  assert (P0 : p N_i = phi) by (unfold p, N_phi; rewrite Ey; reflexivity). rewrite P0 in X.
  apply Rmult_le_reg_r with (sqrt 2); [exact S0|]. replace ((phi - e) / sqrt 2 * sqrt 2) with (phi - e) by (field; lra). lra.
Qed.
End Data.

Let dlam (x : R) := (d2V P L x * V P L x - (dV P L x)^2) / (V P L x)^2.
Lemma lam_derive x : branch P x -> is_derive lam x (dlam x).
Proof.
  intros Bx. destruct (branch_pos P L x HF HV HL Bx) as [A C]. destruct (branch_derivs P L HF HV x Bx) as [D1 D2]. unfold lam, dlam.
  evar_last; [auto_derive; [repeat split; try exd; lra|reflexivity]|]. undd. toR. field. lra.
Qed.
Lemma dlam_cont x : branch P x -> continuous dlam x.
Proof.
  intros Bx. destruct (branch_pos P L x HF HV HL Bx) as [A C]. destruct (potfun_smooth P L x (branch_in_domain P x HF HV Bx)) as (D1 & D2 & D3). cbn [potfun_of pV pdV pd2V] in D1, D2, D3.
  apply (ex_derive_continuous dlam). unfold dlam. auto_derive. repeat split; try exd. apply Rgt_not_eq. apply Rmult_lt_0_compat; [lra|]. rewrite Rmult_1_r. exact A.
Qed.
(** the duration depends continuously on the starting field *)
Lemma lasts_cont phi0 M0 : branch P phi0 -> e < phi0 -> lasts P L N_i phi0 M0 -> forall eps, 0 < eps ->
  exists dl, 0 < dl /\ forall phi M, Rabs (phi - phi0) < dl -> branch P phi -> e < phi -> lasts P L N_i phi M -> Rabs (M - M0) < eps.
Proof.
  intros HB LE (HM & y & a & b & B & A1 & A2 & Ey & I1 & Z) eps HE.
  assert (S2 : sqrt 2 * sqrt 2 = 2) by (apply sqrt_sqrt; lra). assert (S0 : 0 < sqrt 2) by (apply sqrt_lt_R0; lra).
  pose proof (branch_gt0 P e Be) as E0. set (p := N_phi false false y). set (v := N_dphi false false y). set (T0 := N_i + M0) in *.
  pose proof (ld_stay phi0 M0 y a b HB LE HM B A1 A2 Ey I1) as ST. destruct (ld_end phi0 M0 y a b HB LE HM B A1 A2 Ey I1 Z) as (VE & LEE & PE).
  fold p v T0 in ST, VE, LEE, PE.
  assert (FLOW : forall n, a < n < b -> is_derive p n (v n) /\ is_derive v n (- (3 - (v n)^2 / 2) * (v n + lam (p n)))) by (intros n Hn; exact (flat_flow P L false false y a b B n Hn)).
  destruct (branch_room P HF HV HD phi0 HB) as (r & Hr & RM). set (h := phi0 + r). assert (Bh : branch P h) by (apply RM; unfold h; lra).
  set (l := (phi0 + e) / 2). assert (Hl : e < l < phi0) by (unfold l; lra). assert (Bl : branch P l) by (apply RM; lra).
  pose proof (lam_pos P L HF HV HL h Bh) as Lh. fold (lam h) in Lh.
  set (eta := V P L l * exp (- (1 + 2 * (h / lam h)))). assert (He : 0 < eta). { destruct (branch_pos P L l HF HV HL Bl). apply Rmult_lt_0_compat; [assumption|apply exp_pos]. }
  destruct (V_small P L eta HF HV HD HL He) as (d0 & Hd0 & SMALL).
  assert (LOW : forall phi x, l <= phi <= h -> branch P phi -> branch P x -> V P L phi * exp (- (1 + 2 * (phi / lam phi))) <= V P L x -> d0 <= x).
  { intros phi x Hp Bp Bx Q. destruct (Rle_dec d0 x) as [|N]; [assumption|]. exfalso. pose proof (SMALL x ltac:(pose proof (branch_gt0 P x Bx); lra)) as SM.
    assert (eta <= V P L phi * exp (- (1 + 2 * (phi / lam phi)))); [|lra]. unfold eta.
    pose proof (V_incr P L l phi HF HV HL Bl Bp ltac:(lra)) as VI. destruct (branch_pos P L l HF HV HL Bl) as [VL _].
    pose proof (lam_pos P L HF HV HL phi Bp) as Lp. fold (lam phi) in Lp.
    assert (LL : lam h <= lam phi) by (destruct (Req_dec phi h) as [->|]; [lra|left; apply lam_lt_iff; try assumption; lra]).
    assert (RR : phi / lam phi <= h / lam h).
    { apply Rmult_le_compat; [lra|left; apply Rinv_0_lt_compat; lra|lra|apply Rinv_le_contravar; lra]. }
    apply Rmult_le_compat; [lra|left; apply exp_pos|exact VI|]. destruct RR as [RR|RR]; [left; apply exp_increasing; lra|right; f_equal; lra]. }
  set (pE := p T0) in *. assert (BpE : branch P pE) by (apply ST; unfold T0; lra). pose proof (branch_gt0 P pE BpE) as PE0.
  (* just after the end *)
  destruct (FLOW T0 ltac:(unfold T0 in *; lra)) as (DP & DV). rewrite VE in DV. fold pE in DV.
  assert (DC : is_derive (fun s => - sqrt 2 - v s) T0 (2 * (lam pE - sqrt 2))).
  { eapply is_derive_eq; [apply (is_derive_minus (fun _ => - sqrt 2) v T0 0 _ (is_derive_const _ _) DV)|]. unfold minus, plus, opp; simpl. replace (- sqrt 2 * (- sqrt 2 * 1)) with (sqrt 2 * sqrt 2) by ring. rewrite S2. toR. field. }
  destruct (crosses (fun s => - sqrt 2 - v s) T0 _ DC ltac:(lra) ltac:(cbv beta; rewrite VE; ring)) as (d1 & Hd1 & _ & AFT). cbv beta in AFT.
  assert (CP : continuity_pt p T0) by (apply continuity_pt_filterlim; apply (ex_derive_continuous p); eexists; exact DP).
  destruct (CP (Rmin (pE / 2) r)) as (d2 & Hd2 & NEAR); [unfold Rmin; destruct (Rle_dec _ _); lra|]. cbn in NEAR.
  set (w := Rmin (Rmin (eps / 2) (d1 / 2)) (Rmin (d2 / 2) ((b - T0) / 2))).
  assert (Hw : 0 < w /\ w <= eps / 2 /\ w <= d1 / 2 /\ w <= d2 / 2 /\ w <= (b - T0) / 2) by (unfold w, Rmin; repeat destruct (Rle_dec _ _); lra).
  set (tw := T0 + w). assert (Htw : T0 < tw < b) by (unfold tw; lra).
  assert (PB : forall n, T0 <= n <= tw -> pE / 2 <= p n <= h).
  { intros n Hn. destruct (Req_dec n T0) as [->|N]; [fold pE; pose proof (ST T0 ltac:(unfold T0; lra)) as (_ & X & _); fold pE in X; unfold h; lra|].
    assert (X : R_dist (p n) (p T0) < Rmin (pE / 2) r) by (apply NEAR; split; [split; [exact I|intros Q; apply N; symmetry; exact Q]|unfold R_dist; rewrite Rabs_right; unfold tw in *; lra]).
    unfold R_dist in X. fold pE in X. apply Rabs_def2 in X. pose proof (Rmin_l (pE / 2) r). pose proof (Rmin_r (pE / 2) r). pose proof (ST T0 ltac:(unfold T0; lra)) as (_ & Y & _). fold pE in Y. unfold h. lra. }
  set (m := Rmin d0 (pE / 2)). assert (Hm : 0 < m /\ m <= d0 /\ m <= pE / 2) by (unfold m, Rmin; destruct (Rle_dec _ _); lra).
  assert (PLE : pE <= phi0) by (apply (ST T0); unfold T0; lra).
  assert (BRm : forall x, m <= x <= h -> branch P x) by (intros x Hx; apply RM; unfold h in *; lra).
  destruct (bounded v N_i tw ltac:(unfold tw, T0; lra)) as (W0 & HW0 & WB). { intros s Hs. apply (ex_derive_continuous v). eexists. apply (FLOW s). unfold T0 in *. lra. }
  set (W := W0 + 2). assert (S3 : sqrt 2 <= 2) by nra.
  destruct (bounded dlam m h ltac:(unfold h; lra)) as (Ad & _ & AB); [intros s Hs; apply dlam_cont, BRm, Hs|].
  destruct (bounded lam m h ltac:(unfold h; lra)) as (Bd & _ & BB); [intros s Hs; apply (ex_derive_continuous lam); eexists; apply lam_derive, BRm, Hs|].
  destruct (close2 lam dlam m h W Ad Bd ltac:(unfold W; lra) ltac:(intros x Hx; apply lam_derive, BRm, Hx) AB BB ltac:(unfold h; lra)) as (C & HC & CLOSE).
  (* how far v is from - sqrt 2 *)
  set (gap := (phi0 - e) / (2 * sqrt 2)). assert (Hg : 0 < gap) by (apply Rdiv_lt_0_compat; lra).
  assert (K2 : exists k2, 0 < k2 /\ forall s, N_i + gap <= s <= T0 - w -> k2 <= v s + sqrt 2).
  { destruct (Rle_dec (N_i + gap) (T0 - w)) as [GL|GN]; [|exists 1; split; [lra|intros s Hs; lra] ].
    destruct (bounded_below (fun s => v s + sqrt 2) (N_i + gap) (T0 - w) GL) as (k2 & Hk2 & KB).
    - intros s Hs. apply (continuous_plus (V := R_NormedModule) v (fun _ => sqrt 2)); [|apply continuous_const]. apply (ex_derive_continuous v). eexists. apply (FLOW s). unfold T0 in *. lra.
    - intros s Hs Q. destruct (flat_infl P L false false y a b B s ltac:(unfold T0 in *; lra)) as (h2 & Hh2 & E). pose proof (I1 s ltac:(unfold T0 in *; lra)) as J. rewrite E in J. fold v in J.
      replace (v s) with (- sqrt 2) in J by lra. replace ((- sqrt 2)^2) with 2 in J by (replace ((- sqrt 2)^2) with (sqrt 2 * sqrt 2) by ring; symmetry; exact S2). lra.
    - exists k2. split; [exact Hk2|]. intros s Hs. pose proof (KB s Hs) as X. cbv beta in X. destruct (ST s ltac:(unfold T0 in *; lra)) as (_ & _ & Y & _). rewrite Rabs_right in X by lra. exact X. }
  destruct K2 as (k2 & Hk2 & KB2). set (k1 := - sqrt 2 - v tw). assert (Hk1 : 0 < k1) by (apply (AFT tw); unfold tw; lra).
  set (k := Rmin k1 k2). assert (Hk : 0 < k /\ k <= k1 /\ k <= k2) by (unfold k, Rmin; destruct (Rle_dec _ _); lra).
  set (EX := exp (C * (tw - N_i))). assert (EX0 : 1 <= EX).
  { unfold EX. rewrite <- exp_0. assert (X : 0 <= C * (tw - N_i)) by (apply Rmult_le_pos; unfold tw, T0; lra). destruct X as [X|X]; [left; apply exp_increasing; exact X|right; f_equal; exact X]. }
  set (dl := Rmin (Rmin ((phi0 - e) / 2) r) (k / EX)).
  assert (KE : 0 < k / EX) by (apply Rdiv_lt_0_compat; lra).
  assert (Hdl : 0 < dl /\ dl <= (phi0 - e) / 2 /\ dl <= r /\ dl <= k / EX) by (unfold dl, Rmin; repeat destruct (Rle_dec _ _); lra).
  exists dl. split; [lra|]. intros phi M HP Bp LP (HM' & z & a' & b' & Bz & A1' & A2' & Ez & I1' & Z').
  pose proof (Rabs_def2 _ _ HP) as [HP1 HP2]. assert (PR : l <= phi <= h) by (unfold l, h; lra).
  pose proof (ld_stay phi M z a' b' Bp LP HM' Bz A1' A2' Ez I1') as STz. destruct (ld_end phi M z a' b' Bp LP HM' Bz A1' A2' Ez I1' Z') as (VEz & _ & _).
  pose proof (ld_gap phi M z a' b' Bp LP HM' Bz A1' A2' Ez I1' Z') as GAP.
  set (pz := N_phi false false z) in *. set (vz := N_dphi false false z) in *.
  assert (GP : gap <= M).
  { eapply Rle_trans; [|exact GAP]. unfold gap. apply Rmult_le_reg_r with (2 * sqrt 2); [lra|]. replace ((phi0 - e) / (2 * sqrt 2) * (2 * sqrt 2)) with (phi0 - e) by (field; lra).
    replace ((phi - e) / sqrt 2 * (2 * sqrt 2)) with (2 * (phi - e)) by (field; lra). lra. }
  assert (CL : forall t, N_i <= t -> t <= tw -> t <= N_i + M -> (v t - vz t)^2 < k^2).
  { intros t H1 H2 H3.
    assert (G : (p t - pz t)^2 + (v t - vz t)^2 <= ((p N_i - pz N_i)^2 + (v N_i - vz N_i)^2) * exp (C * (t - N_i))).
    { apply (CLOSE p v pz vz N_i t H1); [| |lra].
      - intros s Hs. destruct (FLOW s ltac:(unfold T0 in *; lra)) as (F1 & F2). split; [exact F1|]. split; [exact F2|]. split.
        + destruct (Rle_dec s T0) as [Q|Q].
          * destruct (ST s ltac:(unfold T0 in *; lra)) as (X1 & X2 & _ & X4). pose proof (LOW phi0 (p s) ltac:(unfold h; lra) HB X1 X4). unfold h. lra.
          * pose proof (PB s ltac:(lra)). lra.
        + pose proof (WB s ltac:(lra)). unfold W. lra.
      - intros s Hs. destruct (flat_flow P L false false z a' b' Bz s ltac:(lra)) as (F1 & F2). split; [exact F1|]. split; [exact F2|].
        destruct (STz s ltac:(lra)) as (X1 & X2 & X3 & X4). pose proof (LOW phi (pz s) PR Bp X1 X4). split; [lra|]. unfold W. apply Rabs_le. lra. }
    assert (Q1 : p N_i = phi0) by (unfold p, N_phi; rewrite Ey; reflexivity). assert (Q2 : v N_i = - sqrt 2) by (unfold v, N_dphi; rewrite Ey; reflexivity).
    assert (Q3 : pz N_i = phi) by (unfold pz, N_phi; rewrite Ez; reflexivity). assert (Q4 : vz N_i = - sqrt 2) by (unfold vz, N_dphi; rewrite Ez; reflexivity).
    rewrite Q1, Q2, Q3, Q4 in G. replace ((- sqrt 2 - - sqrt 2)^2) with 0 in G by ring. rewrite Rplus_0_r in G.
    assert (EL : exp (C * (t - N_i)) <= EX).
    { unfold EX. assert (X : C * (t - N_i) <= C * (tw - N_i)) by (apply Rmult_le_compat_l; lra). destruct X as [X|X]; [left; apply exp_increasing; exact X|right; f_equal; exact X]. }
    pose proof (exp_pos (C * (t - N_i))) as EP. pose proof (pow2_ge_0 (p t - pz t)) as PP.
    set (D := phi0 - phi) in *. assert (DD : D^2 <= (k / EX)^2).
    { left. apply sq_lt_abs. unfold D; lra. }
    assert (DE : (k / EX)^2 * EX <= k^2 / EX) by (right; field; lra).
    assert (DK : D^2 * exp (C * (t - N_i)) <= k^2 / EX).
    { eapply Rle_trans; [|exact DE]. apply Rmult_le_compat; [apply pow2_ge_0|lra|exact DD|exact EL]. }
    assert (ST1 : D^2 < (k / EX)^2) by (apply sq_lt_abs; unfold D; lra).
    assert (DK2 : D^2 * exp (C * (t - N_i)) < k^2 / EX).
    { eapply Rlt_le_trans; [|exact DE]. eapply Rle_lt_trans; [apply Rmult_le_compat_l; [apply pow2_ge_0|exact EL]|]. apply Rmult_lt_compat_r; lra. }
    assert (KK : k^2 / EX <= k^2).
    { apply Rmult_le_reg_r with EX; [lra|]. replace (k^2 / EX * EX) with (k^2) by (field; lra). apply mul_ge; [apply pow2_ge_0|exact EX0]. }
    lra. }
  apply Rnot_le_lt. intros X. assert (CASE : M0 + eps <= M \/ M <= M0 - eps) by (unfold Rabs in X; destruct (Rcase_abs _); lra).
  destruct CASE as [Q|Q].
  - pose proof (CL tw ltac:(unfold tw, T0; lra) ltac:(lra) ltac:(unfold tw, T0; lra)) as Y. destruct (STz tw ltac:(unfold tw, T0; lra)) as (_ & _ & Vz & _).
    assert (k <= vz tw - v tw) by (unfold k1 in *; lra). set (u := vz tw - v tw) in *. replace (v tw - vz tw) with (- u) in Y by (unfold u; ring). replace ((- u)^2) with (u^2) in Y by ring. apply (sq_absurd k u); [apply Hk|assumption|exact Y].
  - pose proof (CL (N_i + M) ltac:(lra) ltac:(unfold tw, T0; lra) ltac:(lra)) as Y. rewrite VEz in Y. pose proof (KB2 (N_i + M) ltac:(unfold T0; lra)) as Y2.
    assert (k <= v (N_i + M) + sqrt 2) by lra. set (u := v (N_i + M) + sqrt 2) in *. replace (v (N_i + M) - - sqrt 2) with u in Y by (unfold u; ring). apply (sq_absurd k u); [apply Hk|assumption|exact Y].
Qed.
(** so every number of e-folds between those of two starting fields is reached by a starting field between them *)
Lemma lasts_hit lo hi M1 M2 N : Nfun P e e = 0 -> branch P lo -> branch P hi -> e < lo -> lo < hi -> lasts P L N_i lo M1 -> lasts P L N_i hi M2 -> M1 < N < M2 ->
  exists phi, lo < phi < hi /\ lasts P L N_i phi N.
Proof.
  intros Ne Bl Bh HE LH D1 D2 HN.
  assert (BR : forall x, lo <= x <= hi -> branch P x) by (intros x Hx; apply (branch_between P lo hi x Bl Bh); rewrite Rmin_left, Rmax_right by lra; exact Hx).
  set (S := fun x => lo <= x <= hi /\ exists M, lasts P L N_i x M /\ M < N).
  assert (SB : bound S) by (exists hi; intros x (Hx & _); lra).
  assert (SN : exists x, S x) by (exists lo; split; [lra|exists M1; split; [exact D1|lra] ]).
  destruct (completeness S SB SN) as (s & UB & LUB).
  assert (Hs : lo <= s <= hi) by (split; [apply UB; split; [lra|exists M1; split; [exact D1|lra] ]|apply LUB; intros x (Hx & _); lra]).
  destruct (lasts_ex s Ne (BR s Hs) ltac:(lra)) as (M & DM).
  assert (SH : s < hi \/ s = hi) by lra. assert (SL : lo < s \/ s = lo) by lra.
  destruct (Rtotal_order M N) as [X|[X|X] ].
  - exfalso. destruct SH as [SH | ->]; [|rewrite (lasts_uniq _ _ _ DM D2) in X; lra].
    destruct (lasts_cont s M (BR s Hs) ltac:(lra) DM (N - M) ltac:(lra)) as (dl & Hdl & C). set (x := s + Rmin (dl / 2) (hi - s)).
    assert (Hx : s < x <= hi /\ x - s < dl) by (unfold x, Rmin; destruct (Rle_dec _ _); lra).
    destruct (lasts_ex x Ne (BR x ltac:(lra)) ltac:(lra)) as (Mx & Dx). pose proof (C x Mx ltac:(rewrite Rabs_right; lra) (BR x ltac:(lra)) ltac:(lra) Dx) as Y. apply Rabs_def2 in Y.
    assert (x <= s); [|lra]. apply UB. split; [lra|]. exists Mx. split; [exact Dx|lra].
  - exists s. subst M. split; [|exact DM]. split; [destruct SL as [|E]; [lra|rewrite E in DM; pose proof (lasts_uniq _ _ _ DM D1); lra]|destruct SH as [|E]; [lra|rewrite E in DM; pose proof (lasts_uniq _ _ _ DM D2); lra] ].
  - exfalso. destruct (lasts_cont s M (BR s Hs) ltac:(lra) DM (M - N) ltac:(lra)) as (dl & Hdl & C).
    assert (s <= s - dl / 2); [|lra]. apply LUB. intros x (Hx & Mx & Dx & Lx). destruct (Rle_dec x (s - dl / 2)) as [|Q]; [assumption|]. exfalso.
    assert (XS : x <= s) by (apply UB; split; [exact Hx|exists Mx; split; [exact Dx|exact Lx] ]).
    pose proof (C x Mx ltac:(rewrite Rabs_left1; lra) (BR x Hx) ltac:(lra) Dx) as Y. apply Rabs_def2 in Y. lra.
Qed.
End Dep.
