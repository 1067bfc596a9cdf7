(** C126: the number of e-folds inflation lasts after InflationStartIC depends continuously on the starting field, and a
    bracket contains a starting field for every wanted number between those of its ends. *)
From Coq Require Import Reals List String Lra Lia Classical.
From Coquelicot Require Import Coquelicot.
From Verif Require Import Base Model.Potentials Model.SlowRoll Model.Equations Model.Background Model.Float Model.Solution Model.InitCond
  Spec.PotentialSpec Spec.SlowRollSpec Spec.BackgroundSpec Proofs.PhiEnd Proofs.SRN Proofs.Bracket Proofs.BackgroundT Proofs.BackgroundN Proofs.BackgroundEx Proofs.FloatLemmas Proofs.Unique
  Proofs.SlowRollBound Proofs.Roll Proofs.RollEnd Proofs.FastRoll Proofs.StartCont Proofs.StartMono Properties.BackgroundProps Properties.InitProps Properties.UniqueProps Properties.BracketProps Properties.EndNonvacuity
  Properties.StartEndsProps Properties.StartEndsNonvacuity.
Import ListNotations.
Open Scope R_scope.
Open Scope string_scope.

(** every start InflationStartIC writes for the field phi in a flat universe leads to M e-folds of unbroken inflation *)
Definition inflates_for (U : potfun) (tm te : bool) (t_i eta_i : option R) (x_end N_i phi M : R) : Prop :=
  forall ic y0 ic' y1, is_init (IN 0 U tm te) phi t_i eta_i x_end (kw_of (InN N_i)) = Ok ic ->
  List.length y0 = List.length (N_idx tm te) -> is_call ic y0 = Ok (ic', map Fin y1) ->
  (exists y a b, N_background 0 U tm te y a b /\ a < N_i /\ N_i + M < b /\ y N_i = y1) /\
  forall y a b, N_background 0 U tm te y a b -> a < N_i < b -> y N_i = y1 ->
    N_inflating 0 U tm te N_i (y N_i) = 0 /\
    (forall n, N_i < n < N_i + M -> n < b -> 0 < N_inflating 0 U tm te n (y n)) /\
    (N_i + M < b -> N_inflating 0 U tm te (N_i + M) (y (N_i + M)) = 0).

Section Bridge.
Variables (P : pot) (L e N_i : R).
Let U := potfun_of P L.
Hypotheses (HF : featureless P) (HV : valid P) (HL : L <> 0) (HD : dw_ge1 P).
Hypotheses (Be : branch P e) (Ee : eps1V P e = 1) (Ne : Nfun P e e = 0).
Lemma lasts_inflates tm te t_i eta_i x_end phi M : branch P phi -> e < phi -> lasts P L N_i phi M -> inflates_for U tm te t_i eta_i x_end N_i phi M.
Proof.
  intros HB LE DM ic y0 ic' y1 SI LY SC. destruct (branch_pos P L phi HF HV HL HB) as [V0 V1].
  destruct (is_start_N U tm te phi t_i eta_i x_end N_i ic y0 ic' y1 V0 SI LY SC) as (E1 & E2 & L1).
  pose proof (lam_lt P L HF HV HL HD phi e HB Be Ee LE) as LM.
  destruct (st_core P L tm te HF HV HL HD phi N_i y1 HB E1 E2 LM e Be Ee Ne L1) as (y & a & b & N_end & A1 & A2 & B & Ey & I1 & I2 & I3 & Z & _).
  change (potfun_of P L) with U in B, I1, I2, I3, Z.
  assert (DM' : lasts P L N_i phi (N_end - N_i)).
  { split; [lra|]. exists (fun s => [N_phi tm te y s; N_dphi tm te y s]), a, b. replace (N_i + (N_end - N_i)) with N_end by ring.
    split; [exact (N_proj 0 U tm te y a b B)|]. split; [lra|]. split; [exact A2|]. split; [unfold N_phi, N_dphi; rewrite Ey, E1, E2; reflexivity|]. split; [intros n Hn; exact (I3 n Hn)|exact Z]. }
  pose proof (lasts_uniq P L N_i phi M _ DM DM') as EM. assert (EN : N_i + M = N_end) by lra. rewrite EN.
  split; [exists y, a, b; repeat (split; [first [assumption|lra]|]); exact Ey|].
  intros z a' b' Bz Hz Ez.
  assert (EQ : forall n, N_i <= n <= N_end -> n < b' -> z n = y n).
  { intros n Hn Hb. symmetry. apply (C110_efolds 0 U tm te y z a b a' b' N_i B Bz); try lra. congruence. }
  split; [rewrite EQ by lra; exact I2|]. split; [intros n Hn Hb; rewrite EQ by lra; apply I3, Hn|intros Hb; rewrite EQ by lra; exact Z].
Qed.
End Bridge.

(** C126: continuous dependence *)
Theorem C126_continuous : forall root P L tm te t_i eta_i x_end N_i e phi0,
  let U := potfun_of P L in
  root_spec root -> featureless P -> valid P -> (forall p phi0, P = DoubleWell p phi0 -> 1 <= p) -> P <> DoubleWell 1 (sqrt 2) ->
  L <> 0 -> phi_end root P L = Ok e -> branch P phi0 -> e < phi0 ->
  exists M0, 0 < M0 /\ inflates_for U tm te t_i eta_i x_end N_i phi0 M0 /\
    forall eps, 0 < eps -> exists delta, 0 < delta /\ forall phi, Rabs (phi - phi0) < delta -> branch P phi -> e < phi ->
      exists M, Rabs (M - M0) < eps /\ inflates_for U tm te t_i eta_i x_end N_i phi M.
Proof.
  intros root P L tm te t_i eta_i x_end N_i e phi0 U HR HF HV HD HN HL HE HB LE.
  pose proof (phi_end_branch root P L e HR HF HV HL HN HE) as Be. destruct (phi_end_spec root P L e HR HF HV HL HE) as [_ Ee].
  pose proof (Nfun_end root P L e HF HV HE) as Ne.
  destruct (lasts_ex P L e N_i HF HV HL HD Be Ee phi0 Ne HB LE) as (M0 & DM). exists M0. split; [apply DM|].
  split; [apply (lasts_inflates P L e N_i HF HV HL HD Be Ee Ne); assumption|].
  intros eps He. destruct (lasts_cont P L e N_i HF HV HL HD Be Ee phi0 M0 HB LE DM eps He) as (dl & Hdl & C). exists dl. split; [exact Hdl|].
  intros phi Hp Bp Lp. destruct (lasts_ex P L e N_i HF HV HL HD Be Ee phi Ne Bp Lp) as (M & DP). exists M. split; [apply (C phi M Hp Bp Lp DP)|].
  apply (lasts_inflates P L e N_i HF HV HL HD Be Ee Ne); assumption.
Qed.
Lemma lasts_start root P L e lo hi N_tot N_sr :
  root_spec root -> featureless P -> valid P -> (forall p phi0, P = DoubleWell p phi0 -> 1 <= p) -> P <> DoubleWell 1 (sqrt 2) ->
  L <> 0 -> phi_end root P L = Ok e -> branch P lo -> branch P hi -> e < lo -> lo < hi ->
  lo * (V P L lo / dV P L lo) < N_tot -> sr_phi2N root P L hi = Ok N_sr -> N_tot < N_sr - (sqrt 2 * (V P L hi / dV P L hi) - 1) / 2 ->
  exists phi, lo < phi < hi /\ lasts P L 0 phi N_tot.
Proof.
  intros HR HF HV HD HN HL HE Bl Bh LE LH LO SR HI.
  pose proof (phi_end_branch root P L e HR HF HV HL HN HE) as Be. destruct (phi_end_spec root P L e HR HF HV HL HE) as [_ Ee].
  pose proof (Nfun_end root P L e HF HV HE) as Ne.
  assert (BND : forall x, branch P x -> e < x -> exists M, lasts P L 0 x M /\ Nfun P e x - (sqrt 2 * (V P L x / dV P L x) - 1) / 2 <= M <= x * (V P L x / dV P L x)).
  { intros x Bx Lx. destruct (branch_pos P L x HF HV HL Bx) as [V0 V1]. pose proof (lam_lt P L HF HV HL HD x e Bx Be Ee Lx) as LM.
    destruct (st_core P L false false HF HV HL HD x 0 [x; - sqrt 2] Bx eq_refl eq_refl LM e Be Ee Ne eq_refl) as (y & a & b & N_end & A1 & A2 & B & Ey & I1 & I2 & I3 & Z & W1 & W2).
    exists (N_end - 0). split.
    - split; [lra|]. exists y, a, b. replace (0 + (N_end - 0)) with N_end by ring. split; [exact B|]. split; [lra|]. split; [exact A2|]. split; [exact Ey|]. split; [exact I3|exact Z].
    - split; [eapply Rle_trans; [|exact W1]|eapply Rle_trans; [exact W2|] ]; right; field; lra. }
  destruct (BND lo Bl LE) as (M1 & D1 & _ & U1). destruct (BND hi Bh ltac:(lra)) as (M2 & D2 & L2 & _).
  rewrite (Nfun_ok root P L e hi HE) in SR. injection SR as SR. rewrite SR in L2.
  destruct (lasts_hit P L e 0 HF HV HL HD Be Ee lo hi M1 M2 N_tot Ne Bl Bh LE LH D1 D2 ltac:(lra)) as (phi & Hp & DP).
  exists phi. split; [exact Hp|exact DP].
Qed.
(** C126: the target of the search exists *)
Theorem C126_exact_start : forall root P L tm te t_i eta_i x_end N_i e lo hi N_tot N_sr,
  let U := potfun_of P L in
  root_spec root -> featureless P -> valid P -> (forall p phi0, P = DoubleWell p phi0 -> 1 <= p) -> P <> DoubleWell 1 (sqrt 2) ->
  L <> 0 -> phi_end root P L = Ok e -> branch P lo -> branch P hi -> e < lo -> lo < hi ->
  lo * (V P L lo / dV P L lo) < N_tot -> sr_phi2N root P L hi = Ok N_sr -> N_tot < N_sr - (sqrt 2 * (V P L hi / dV P L hi) - 1) / 2 ->
  exists phi, lo < phi < hi /\ inflates_for U tm te t_i eta_i x_end N_i phi N_tot.
Proof.
  intros root P L tm te t_i eta_i x_end N_i e lo hi N_tot N_sr U HR HF HV HD HN HL HE Bl Bh LE LH LO SR HI.
  pose proof (phi_end_branch root P L e HR HF HV HL HN HE) as Be. destruct (phi_end_spec root P L e HR HF HV HL HE) as [_ Ee].
  pose proof (Nfun_end root P L e HF HV HE) as Ne.
  destruct (lasts_start root P L e lo hi N_tot N_sr HR HF HV HD HN HL HE Bl Bh LE LH LO SR HI) as (phi & Hp & DP).
  exists phi. split; [exact Hp|]. apply (lasts_inflates P L e N_i HF HV HL HD Be Ee Ne); [|lra|apply (lasts_shift P L 0), DP].
  apply (branch_between P lo hi phi Bl Bh). rewrite Rmin_left, Rmax_right by lra. lra.
Qed.
(** C126: there is one number of e-folds per starting field, whatever the options and the initial e-fold number; it
    depends continuously on the starting field and strictly increases with it *)
Theorem C126_increasing : forall root P L e,
  let U := potfun_of P L in
  root_spec root -> featureless P -> valid P -> (forall p phi0, P = DoubleWell p phi0 -> 1 <= p) -> P <> DoubleWell 1 (sqrt 2) ->
  L <> 0 -> phi_end root P L = Ok e ->
  exists N_tot : R -> R,
    (forall phi, branch P phi -> e < phi -> 0 < N_tot phi /\
       forall tm te t_i eta_i x_end N_i, inflates_for U tm te t_i eta_i x_end N_i phi (N_tot phi)) /\
    (forall phi1 phi2, branch P phi1 -> branch P phi2 -> e < phi1 -> phi1 < phi2 -> N_tot phi1 < N_tot phi2) /\
    (forall phi0, branch P phi0 -> e < phi0 -> forall eps, 0 < eps -> exists delta, 0 < delta /\
       forall phi, Rabs (phi - phi0) < delta -> branch P phi -> e < phi -> Rabs (N_tot phi - N_tot phi0) < eps).
Proof.
  intros root P L e U HR HF HV HD HN HL HE.
  pose proof (phi_end_branch root P L e HR HF HV HL HN HE) as Be. destruct (phi_end_spec root P L e HR HF HV HL HE) as [_ Ee].
  pose proof (Nfun_end root P L e HF HV HE) as Ne.
  assert (D : forall N_i phi, branch P phi -> e < phi -> lasts P L N_i phi (dur P L phi)).
  { intros N_i phi HB LE. destruct (lasts_ex P L e N_i HF HV HL HD Be Ee phi Ne HB LE) as (M & DM). rewrite (dur_ok P L N_i phi M DM). exact DM. }
  exists (dur P L). split; [|split].
  - intros phi HB LE. split; [apply (D 0 phi HB LE)|]. intros tm te t_i eta_i x_end N_i. apply (lasts_inflates P L e N_i HF HV HL HD Be Ee Ne); [exact HB|exact LE|apply D; assumption].
  - intros phi1 phi2 B1 B2 H1 H2. apply (lasts_mono P L e 0 HF HV HL HD Be Ee phi1 phi2); try assumption; apply D; try assumption; lra.
  - intros phi0 HB LE eps He. destruct (lasts_cont P L e 0 HF HV HL HD Be Ee phi0 _ HB LE (D 0 phi0 HB LE) eps He) as (dl & Hdl & C). exists dl. split; [exact Hdl|].
    intros phi Hp Bp Lp. apply (C phi _ Hp Bp Lp). apply D; assumption.
Qed.
(** C126: the start with exactly the wanted number of e-folds is the only one: below it inflation is shorter, above it longer *)
Theorem C126_unique_start : forall root P L e lo hi N_wanted N_sr,
  let U := potfun_of P L in
  root_spec root -> featureless P -> valid P -> (forall p phi0, P = DoubleWell p phi0 -> 1 <= p) -> P <> DoubleWell 1 (sqrt 2) ->
  L <> 0 -> phi_end root P L = Ok e -> branch P lo -> branch P hi -> e < lo -> lo < hi ->
  lo * (V P L lo / dV P L lo) < N_wanted -> sr_phi2N root P L hi = Ok N_sr -> N_wanted < N_sr - (sqrt 2 * (V P L hi / dV P L hi) - 1) / 2 ->
  exists phi, lo < phi < hi /\ (forall tm te t_i eta_i x_end N_i, inflates_for U tm te t_i eta_i x_end N_i phi N_wanted) /\
    forall phi', branch P phi' -> e < phi' -> phi' <> phi ->
      exists M, (phi' < phi -> M < N_wanted) /\ (phi < phi' -> N_wanted < M) /\ forall tm te t_i eta_i x_end N_i, inflates_for U tm te t_i eta_i x_end N_i phi' M.
Proof.
  intros root P L e lo hi N_wanted N_sr U HR HF HV HD HN HL HE Bl Bh LE LH LO SR HI.
  pose proof (phi_end_branch root P L e HR HF HV HL HN HE) as Be. destruct (phi_end_spec root P L e HR HF HV HL HE) as [_ Ee].
  pose proof (Nfun_end root P L e HF HV HE) as Ne.
  destruct (lasts_start root P L e lo hi N_wanted N_sr HR HF HV HD HN HL HE Bl Bh LE LH LO SR HI) as (phi & Hp & DP).
  assert (Bp : branch P phi) by (apply (branch_between P lo hi phi Bl Bh); rewrite Rmin_left, Rmax_right by lra; lra).
  exists phi. split; [exact Hp|]. split.
  - intros tm te t_i eta_i x_end N_i. apply (lasts_inflates P L e N_i HF HV HL HD Be Ee Ne); [exact Bp|lra|apply (lasts_shift P L 0), DP].
  - intros phi' B' L' _. destruct (lasts_ex P L e 0 HF HV HL HD Be Ee phi' Ne B' L') as (M & DM). exists M.
    split; [intros H; apply (lasts_mono P L e 0 HF HV HL HD Be Ee phi' phi); assumption|].
    split; [intros H; apply (lasts_mono P L e 0 HF HV HL HD Be Ee phi phi'); try assumption; lra|].
    intros tm te t_i eta_i x_end N_i. apply (lasts_inflates P L e N_i HF HV HL HD Be Ee Ne); [exact B'|exact L'|apply (lasts_shift P L 0), DM].
Qed.
(** a concrete bracket: quadratic inflation for exactly 20 e-folds starts between phi = 6 and phi = 10 *)
Theorem C126_nonvacuous : exists phi ic ic' y1 y a b, 6 < phi < 10 /\
  is_init (IN 0 (potfun_of Quadratic 1) true true) phi (Some 1) (Some 0) 0 (kw_of (InN 0)) = Ok ic /\
  is_call ic [Fin 0; Fin 0; Fin 0; Fin 0] = Ok (ic', map Fin y1) /\
  N_background 0 (potfun_of Quadratic 1) true true y a b /\ a < 0 /\ 20 < b /\ y 0 = y1 /\
  (forall n, 0 < n < 20 -> 0 < N_inflating 0 (potfun_of Quadratic 1) true true n (y n)) /\
  N_inflating 0 (potfun_of Quadratic 1) true true 20 (y 20) = 0.
Proof.
  destruct C125_nonvacuous as (root & HR & PE & _ & _ & LO & N & SR & HI). pose proof sq2 as S2.
  destruct (C126_exact_start root Quadratic 1 true true (Some 1) (Some 0) 0 0 (sqrt 2) 6 10 20 N HR I I ltac:(intros; discriminate) ltac:(discriminate) ltac:(lra) PE ltac:(cbn; lra) ltac:(cbn; lra) ltac:(lra) ltac:(lra) LO SR HI)
    as (phi & Hp & W).
  assert (HV : 0 < pV (potfun_of Quadratic 1) phi) by (unfold potfun_of; cbn [pV]; unfold V, quad_V; nra).
  destruct (is_starts_N (potfun_of Quadratic 1) phi 1 0 0 0 HV) as (ic & ic' & y1 & SI & SC).
  destruct (W ic [Fin 0; Fin 0; Fin 0; Fin 0] ic' y1 SI eq_refl SC) as ((y & a & b & B & A1 & A2 & Ey) & Q).
  destruct (Q y a b B ltac:(lra) Ey) as (_ & Q1 & Q2). rewrite Rplus_0_l in *.
  exists phi, ic, ic', y1, y, a, b. split; [exact Hp|]. split; [exact SI|]. split; [exact SC|]. split; [exact B|]. split; [exact A1|]. split; [exact A2|]. split; [exact Ey|].
  split; [intros n Hn; apply Q1; lra|apply Q2, A2].
Qed.
