(** Concrete cases for C125: quadratic inflation started by InflationStartIC at phi = 10 in a flat universe. *)
From Coq Require Import Reals List String Lra Lia.
From Coquelicot Require Import Coquelicot.
From Verif Require Import Base Model.Potentials Model.SlowRoll Model.Equations Model.Background Model.Float Model.Solution Model.InitCond
  Spec.PotentialSpec Spec.SlowRollSpec Spec.BackgroundSpec Proofs.PhiEnd Proofs.SRN Proofs.BackgroundT Proofs.BackgroundN Proofs.BackgroundEx Proofs.FloatLemmas
  Properties.BracketProps Properties.InitProps Properties.ExistenceProps Properties.EndNonvacuity Properties.StartEndsProps.
Import ListNotations.
Open Scope R_scope.

(** InflationStartIC accepts every start with V > 0 in a flat universe and writes finite numbers *)
Lemma is_starts_T U phi t eta xe n : 0 < pV U phi -> exists ic ic' y1,
  is_init (IT 0 U true) phi (Some t) (Some eta) xe (kw_of (InN n)) = Ok ic /\ is_call ic [Fin 0; Fin 0; Fin 0; Fin 0] = Ok (ic', map Fin y1).
Proof.
  intros HV. pose proof (exp_pos (2 * n)) as EP. assert (HA : 0 < pV U phi / 2 * exp (2 * n) - 0) by (rewrite Rminus_0_r; apply Rmult_lt_0_compat; lra).
  unfold is_init. cbn [kw_of kw_N kw_O ie_U ie_K]. rewrite fdiv_fin by lra. cbn [fmul fexp fsub].
  destruct (flt (Fin (pV U phi / 2 * exp (2 * n) - 0)) (Fin 0)) eqn:F; [apply flt_iff in F; lra|]. cbn [bind].
  eexists. eexists. exists [phi; - sqrt (pV U phi); n; eta]. split; [reflexivity|].
  unfold is_call. cbn [ic_eqs ic_dphi ic_N ic_phi ic_eta ic_t ic_V ic_H ic_O ic_aH ic_input ic_x_end ie_te ie_idx ie_U ie_K bind]. rewrite (fsqrt_fin (pV U phi)) by lra. cbn. reflexivity.
Qed.
Lemma is_starts_N U phi t eta xe n : 0 < pV U phi -> exists ic ic' y1,
  is_init (IN 0 U true true) phi (Some t) (Some eta) xe (kw_of (InN n)) = Ok ic /\ is_call ic [Fin 0; Fin 0; Fin 0; Fin 0] = Ok (ic', map Fin y1).
Proof.
  intros HV. pose proof (exp_pos (2 * n)) as EP. assert (HA : 0 < pV U phi / 2 * exp (2 * n) - 0) by (rewrite Rminus_0_r; apply Rmult_lt_0_compat; lra).
  unfold is_init. cbn [kw_of kw_N kw_O ie_U ie_K]. rewrite fdiv_fin by lra. cbn [fmul fexp fsub].
  destruct (flt (Fin (pV U phi / 2 * exp (2 * n) - 0)) (Fin 0)) eqn:F; [apply flt_iff in F; lra|]. cbn [bind].
  eexists. eexists. exists [phi; - sqrt (pV U phi) / sqrt (pV U phi / 2 - 0 * exp (-2 * n)); t; eta]. split; [reflexivity|].
  assert (Q : 0 < pV U phi / 2 - 0 * exp (-2 * n)) by lra. assert (0 < sqrt (pV U phi / 2 - 0 * exp (-2 * n))) by (apply sqrt_lt_R0; exact Q).
  unfold is_call. cbn [ic_eqs ic_dphi ic_N ic_phi ic_eta ic_t ic_V ic_H ic_O ic_aH ic_input ic_x_end ie_te ie_idx ie_U ie_K bind fmul fexp fsub]. rewrite (fsqrt_fin (pV U phi)) by lra.
  rewrite (fsqrt_fin (pV U phi / 2 - 0 * exp (-2 * n))) by lra. cbn [fneg]. rewrite fdiv_fin by lra. cbn. reflexivity.
Qed.
Theorem C125_nonvacuous : exists root, root_spec root /\ phi_end root Quadratic 1 = Ok (sqrt 2) /\
  (exists ic ic' y1 y a b N_end, is_init (IN 0 (potfun_of Quadratic 1) true true) 10 (Some 1) (Some 0) 0 (kw_of (InN 0)) = Ok ic /\
     is_call ic [Fin 0; Fin 0; Fin 0; Fin 0] = Ok (ic', map Fin y1) /\
     a < 0 /\ N_end < b /\ N_background 0 (potfun_of Quadratic 1) true true y a b /\ y 0 = y1 /\
     (forall n, a < n < 0 -> N_inflating 0 (potfun_of Quadratic 1) true true n (y n) < 0) /\
     (forall n, 0 < n < N_end -> 0 < N_inflating 0 (potfun_of Quadratic 1) true true n (y n)) /\
     N_inflating 0 (potfun_of Quadratic 1) true true N_end (y N_end) = 0 /\ 21 <= N_end <= 50) /\
  (exists ic ic' y1 y a b t_end, is_init (IT 0 (potfun_of Quadratic 1) true) 10 (Some 1) (Some 0) 0 (kw_of (InN 0)) = Ok ic /\
     is_call ic [Fin 0; Fin 0; Fin 0; Fin 0] = Ok (ic', map Fin y1) /\ a < 1 < t_end /\ t_end < b /\
     T_background 0 (potfun_of Quadratic 1) true y a b /\ y 1 = y1 /\ T_inflating (potfun_of Quadratic 1) true t_end (y t_end) = 0 /\
     21 <= T_N true y t_end <= 50) /\
  (6 * (V Quadratic 1 6 / dV Quadratic 1 6) < 20 /\ exists N, sr_phi2N root Quadratic 1 10 = Ok N /\ 20 < N - (sqrt 2 * (V Quadratic 1 10 / dV Quadratic 1 10) - 1) / 2).
Proof.
  destruct C87_root_finder_exists as (root & HR & _). exists root. split; [exact HR|]. pose proof sq2 as S2.
  assert (PE : phi_end root Quadratic 1 = Ok (sqrt 2)) by (cbn; unfold mono_phi_end; do 2 f_equal; lra). split; [exact PE|].
  assert (HB : branch Quadratic 10) by (cbn; lra).
  assert (Q : V Quadratic 1 10 / dV Quadratic 1 10 = 5) by (unfold V, dV, quad_V, quad_dV; field).
  split; [|split; [|split] ].
  - destruct (is_starts_N (potfun_of Quadratic 1) 10 1 0 0 0 quad_V10) as (ic & ic' & y1 & SI & SC).
    destruct (C125_efolds root Quadratic 1 true true 10 (Some 1) (Some 0) 0 0 (sqrt 2) ic [Fin 0; Fin 0; Fin 0; Fin 0] ic' y1 HR I I ltac:(intros; discriminate) ltac:(discriminate) ltac:(lra) HB PE ltac:(lra) SI eq_refl SC)
      as (y & a & b & N_end & N_sr & A1 & A2 & B & Ey & I1 & I2 & I3 & Z & SR & LO & UP).
    rewrite Q in LO, UP. rewrite (quad_Nsr root N_sr SR) in LO.
    exists ic, ic', y1, y, a, b, N_end. split; [exact SI|]. split; [exact SC|]. split; [lra|]. split; [exact A2|]. split; [exact B|]. split; [exact Ey|]. split; [exact I1|]. split; [exact I3|]. split; [exact Z|]. lra.
  - destruct (is_starts_T (potfun_of Quadratic 1) 10 1 0 0 0 quad_V10) as (ic & ic' & y1 & SI & SC).
    destruct (C125_time root Quadratic 1 true 10 1 (Some 0) 0 0 (sqrt 2) ic [Fin 0; Fin 0; Fin 0; Fin 0] ic' y1 HR I I ltac:(intros; discriminate) ltac:(discriminate) ltac:(lra) HB PE ltac:(lra) SI eq_refl SC)
      as (y & a & b & t_end & N_sr & A1 & A2 & B & Ey & I1 & I2 & I3 & Z & TI & SR & LO & UP).
    rewrite Q in LO, UP. rewrite (quad_Nsr root N_sr SR) in LO.
    exists ic, ic', y1, y, a, b, t_end. split; [exact SI|]. split; [exact SC|]. split; [exact A1|]. split; [exact A2|]. split; [exact B|]. split; [exact Ey|]. split; [exact Z|]. lra.
  - unfold V, dV, quad_V, quad_dV. lra.
  - pose proof (Nfun_ok root Quadratic 1 (sqrt 2) 10 PE) as X. rewrite (quad_Nsr root _ X) in X. exists (49/2). split; [exact X|]. rewrite Q. lra.
Qed.
Lemma is_starts_T_K K U phi t eta xe n : 0 < pV U phi -> 0 < pV U phi / 2 * exp (2 * n) - K -> exists ic ic' y1,
  is_init (IT K U true) phi (Some t) (Some eta) xe (kw_of (InN n)) = Ok ic /\ is_call ic [Fin 0; Fin 0; Fin 0; Fin 0] = Ok (ic', map Fin y1) /\
  ic_H ic = Fin (sqrt (pV U phi / 2 - K * exp (-2 * n))).
Proof.
  intros HV HA. unfold is_init. cbn [kw_of kw_N kw_O ie_U ie_K]. rewrite fdiv_fin by lra. cbn [fmul fexp fsub].
  destruct (flt (Fin (pV U phi / 2 * exp (2 * n) - K)) (Fin 0)) eqn:F; [apply flt_iff in F; lra|]. cbn [bind].
  eexists. eexists. exists [phi; - sqrt (pV U phi); n; eta]. split; [reflexivity|]. split.
  - unfold is_call. cbn [ic_eqs ic_dphi ic_N ic_phi ic_eta ic_t ic_V ic_H ic_O ic_aH ic_input ic_x_end ie_te ie_idx ie_U ie_K bind]. rewrite (fsqrt_fin (pV U phi)) by lra. cbn. reflexivity.
  - cbn [ic_H]. pose proof (exp_pos (-2 * n)) as EP.
    assert (X : 0 < (pV U phi / 2 * exp (2 * n) - K) * exp (-2 * n)) by (apply Rmult_lt_0_compat; assumption).
    replace ((pV U phi / 2 * exp (2 * n) - K) * exp (-2 * n)) with (pV U phi / 2 * (exp (2 * n) * exp (-2 * n)) - K * exp (-2 * n)) in X by ring.
    rewrite <- exp_plus in X. replace (2 * n + -2 * n) with 0 in X by ring. rewrite exp_0, Rmult_1_r in X. change (fsqrt (Fin (pV U phi / 2 - K * exp (-2 * n))) = Fin (sqrt (pV U phi / 2 - K * exp (-2 * n)))). rewrite fsqrt_fin by lra. reflexivity.
Qed.
(** InflationStartIC accepts a start below phi_end, and a start far above phi_end in a barely admissible closed universe,
    at which inflation does not start but ends *)
Theorem C125_not_a_start : forall K phi n, (K = 0 /\ phi = 1 /\ n = 0) \/ (K = 1 /\ phi = 10 /\ n = - ln (99/2) / 2) ->
  exists ic ic' y1, is_init (IT K (potfun_of Quadratic 1) true) phi (Some 1) (Some 0) 0 (kw_of (InN n)) = Ok ic /\
  is_call ic [Fin 0; Fin 0; Fin 0; Fin 0] = Ok (ic', map Fin y1) /\
  exists y a b d, T_background K (potfun_of Quadratic 1) true y a b /\ a < 1 < b /\ y 1 = y1 /\ 0 < d /\
    (forall t, 1 - d < t < 1 -> 0 < T_inflating (potfun_of Quadratic 1) true t (y t)) /\
    (forall t, 1 < t < 1 + d -> T_inflating (potfun_of Quadratic 1) true t (y t) < 0).
Proof.
  intros K phi n HC. pose proof sq2 as S2. set (U := potfun_of Quadratic 1).
  assert (EX : exp (-2 * (- ln (99/2) / 2)) = 99/2) by (replace (-2 * (- ln (99/2) / 2)) with (ln (99/2)) by field; apply exp_ln; lra).
  assert (EX2 : exp (2 * (- ln (99/2) / 2)) = / (99/2)) by (replace (2 * (- ln (99/2) / 2)) with (- (ln (99/2))) by field; rewrite exp_Ropp, exp_ln by lra; reflexivity).
  assert (VE : pV U phi = phi^2) by (unfold U, potfun_of; cbn [pV]; unfold V, quad_V; ring).
  assert (DE : pdV U phi = 2 * phi) by (unfold U, potfun_of; cbn [pdV]; unfold dV, quad_dV; ring).
  assert (P1 : 0 < phi) by (destruct HC as [(-> & -> & ->)|(-> & -> & ->)]; lra).
  assert (HV : 0 < pV U phi) by (rewrite VE; nra).
  assert (HA : 0 < pV U phi / 2 * exp (2 * n) - K).
  { rewrite VE. destruct HC as [(-> & -> & ->)|(-> & -> & ->)]; [rewrite Rmult_0_r, exp_0; lra|]. rewrite EX2. lra. }
  destruct (is_starts_T_K K U phi 1 0 0 n HV HA) as (ic & ic' & y1 & SI & SC & SH).
  exists ic, ic', y1. split; [exact SI|]. split; [exact SC|].
  destruct (C119_inflation_start K U true phi 1 (Some 0) 0 n ic ic' [Fin 0; Fin 0; Fin 0; Fin 0] y1 1 HV HA ltac:(lra) ltac:(intros x _; apply potfun_smooth; exact I) SI eq_refl SC) as (y & a & b & HT & B & Ey & _).
  destruct (C125_onset K U true phi 1 (Some 0) 0 (InN n) ic [Fin 0; Fin 0; Fin 0; Fin 0] ic' y1 HV HA SI eq_refl SC) as (H & H0 & EH & Q).
  destruct (Q y a b B HT Ey) as (_ & _ & W). rewrite SH in EH. injection EH as EH.
  assert (SV : sqrt (pV U phi) = phi) by (rewrite VE; apply sqrt_pow2; lra).
  destruct W as (d & Hd & W1 & W2); [|exists y, a, b, d; split; [exact B|]; split; [exact HT|]; split; [exact Ey|]; split; [exact Hd|]; split; [exact W1|exact W2] ].
  rewrite SV, DE. assert (H < 1); [|nra]. rewrite <- EH. apply Rlt_le_trans with (sqrt 1); [|rewrite sqrt_1; lra]. apply sqrt_lt_1_alt. change (quad_V 1 phi) with (pV U phi). rewrite VE.
  destruct HC as [(-> & -> & ->)|(-> & -> & ->)]; [lra|]. rewrite EX. lra.
Qed.
