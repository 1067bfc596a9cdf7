(** Concrete cases for C118, C119 and C120: quadratic inflation started by SlowRollIC at phi = 10 in a flat universe,
    and the exact power-law evolutions of a flat and a closed universe. *)
From Coq Require Import Reals List String Lra Lia.
From Coquelicot Require Import Coquelicot.
From Verif Require Import Base Model.Potentials Model.SlowRoll Model.Equations Model.Background Model.Float Model.Solution Model.InitCond
  Spec.PotentialSpec Spec.SlowRollSpec Spec.BackgroundSpec Proofs.PhiEnd Proofs.SRN Proofs.BackgroundT Proofs.BackgroundN Proofs.BackgroundEx Proofs.FloatLemmas
  Properties.BackgroundProps Properties.BracketProps Properties.InitProps Properties.SlowRollBoundProps Properties.ExistenceProps Properties.InflationEndsProps.
Import ListNotations.
Open Scope R_scope.

Lemma sq2 : 1 < sqrt 2 < 3/2.
Proof. assert (sqrt 2 * sqrt 2 = 2) by (apply sqrt_sqrt; lra). assert (0 < sqrt 2) by (apply sqrt_lt_R0; lra). nra. Qed.
(** SlowRollIC accepts every start with V > 0 in a flat universe and writes finite numbers *)
Lemma starts_T U phi t eta xe n : 0 < pV U phi -> exists ic y1,
  sr_init (IT 0 U true) phi (Some t) (Some eta) xe (kw_of (InN n)) = Ok ic /\ sr_call ic [Fin 0; Fin 0; Fin 0; Fin 0] = Ok (map Fin y1).
Proof.
  intros HV. assert (HP : 0 < pV U phi / 3 * exp (2 * n) - 0) by (pose proof (exp_pos (2 * n)); rewrite Rminus_0_r; apply Rmult_lt_0_compat; lra).
  assert (S0 : 0 < sqrt (pV U phi / 3)) by (apply sqrt_lt_R0; lra).
  eexists. exists [phi; - pdV U phi / (3 * sqrt (pV U phi / 3)); n; eta]. split; [apply (sr_from_N (IT 0 U true) phi (Some t) (Some eta) xe n HP)|].
  assert (D : fdiv (Fin (- pdV U phi)) (fmul (Fin 3) (fmul (Fin (sqrt (pV U phi / 3 * exp (2 * n) - 0))) (fexp (fneg (Fin n))))) = Fin (- pdV U phi / (3 * sqrt (pV U phi / 3)))).
  { cbn [fmul fexp fneg]. rewrite (sr_aH _ _ HV). apply fdiv_fin. lra. }
  unfold sr_call, sr_obj. cbn [ic_eqs ic_dphi ic_N ic_phi ic_eta ie_te ie_idx ie_U ie_K attr_of bind]. rewrite D. reflexivity.
Qed.
Lemma starts_N U phi t eta xe n : 0 < pV U phi -> exists ic y1,
  sr_init (IN 0 U true true) phi (Some t) (Some eta) xe (kw_of (InN n)) = Ok ic /\ sr_call ic [Fin 0; Fin 0; Fin 0; Fin 0] = Ok (map Fin y1).
Proof.
  intros HV. assert (HP : 0 < pV U phi / 3 * exp (2 * n) - 0) by (pose proof (exp_pos (2 * n)); rewrite Rminus_0_r; apply Rmult_lt_0_compat; lra).
  eexists. exists [phi; - pdV U phi / pV U phi; t; eta]. split; [apply (sr_from_N (IN 0 U true true) phi (Some t) (Some eta) xe n HP)|].
  assert (D : let h := fmul (Fin (sqrt (pV U phi / 3 * exp (2 * n) - 0))) (fexp (fneg (Fin n))) in fdiv (Fin (- pdV U phi)) (fmul (Fin 3) (fmul h h)) = Fin (- pdV U phi / pV U phi)).
  { cbn [fmul fexp fneg]. rewrite (sr_aH _ _ HV). rewrite sqrt_sqrt by lra. replace (3 * (pV U phi / 3)) with (pV U phi) by field. apply fdiv_fin. lra. }
  cbv zeta in D. unfold sr_call, sr_obj. cbn [ic_eqs ic_dphi ic_N ic_phi ic_eta ic_t ie_te ie_idx ie_U ie_K attr_of bind]. rewrite D. reflexivity.
Qed.
Lemma quad_V10 : 0 < pV (potfun_of Quadratic 1) 10.
Proof. unfold potfun_of. cbn [pV]. unfold V, quad_V. lra. Qed.
Lemma quad_Nsr root N : sr_phi2N root Quadratic 1 10 = Ok N -> N = 49/2.
Proof.
  intros H. assert (S2 : sqrt 2 * sqrt 2 = 2) by (apply sqrt_sqrt; lra).
  rewrite (Nfun_ok root Quadratic 1 (mono_phi_end 2) 10 eq_refl) in H. injection H as <-. unfold Nfun, mono_phi2N, mono_phi_end. nra.
Qed.
Lemma quad_up : 10 * V Quadratic 1 10 / dV Quadratic 1 10 = 50.
Proof. unfold V, dV, quad_V, quad_dV. field. Qed.

Theorem C120_nonvacuous : exists root, root_spec root /\
  (exists ic y1 y a b N_end, sr_init (IN 0 (potfun_of Quadratic 1) true true) 10 (Some 1) (Some 0) 0 (kw_of (InN 0)) = Ok ic /\
     sr_call ic [Fin 0; Fin 0; Fin 0; Fin 0] = Ok (map Fin y1) /\ phi_end root Quadratic 1 = Ok (sqrt 2) /\
     a < 0 /\ N_end < b /\ N_background 0 (potfun_of Quadratic 1) true true y a b /\ y 0 = y1 /\
     (forall n, 0 <= n < N_end -> 0 < N_inflating 0 (potfun_of Quadratic 1) true true n (y n)) /\
     N_inflating 0 (potfun_of Quadratic 1) true true N_end (y N_end) = 0 /\ 49/2 <= N_end <= 50) /\
  (exists ic y1 y a b t_end, sr_init (IT 0 (potfun_of Quadratic 1) true) 10 (Some 1) (Some 0) 0 (kw_of (InN 0)) = Ok ic /\
     sr_call ic [Fin 0; Fin 0; Fin 0; Fin 0] = Ok (map Fin y1) /\ a < 1 < t_end /\ t_end < b /\
     T_background 0 (potfun_of Quadratic 1) true y a b /\ y 1 = y1 /\ T_inflating (potfun_of Quadratic 1) true t_end (y t_end) = 0 /\
     49/2 <= T_N true y t_end - T_N true y 1).
Proof.
  destruct C87_root_finder_exists as (root & HR & _). exists root. split; [exact HR|]. pose proof sq2 as S2.
  assert (PE : phi_end root Quadratic 1 = Ok (sqrt 2)) by (cbn; unfold mono_phi_end; do 2 f_equal; lra).
  assert (HB : branch Quadratic 10) by (cbn; lra).
  split.
  - destruct (starts_N (potfun_of Quadratic 1) 10 1 0 0 0 quad_V10) as (ic & y1 & SI & SC).
    destruct (C120_efolds root Quadratic 1 true true 10 (Some 1) (Some 0) 0 0 (sqrt 2) ic [Fin 0; Fin 0; Fin 0; Fin 0] y1 HR I I ltac:(intros; discriminate) ltac:(discriminate) ltac:(lra) HB PE ltac:(lra) SI eq_refl SC)
      as (y & a & b & N_end & N_sr & A1 & A2 & B & Ey & IN & Z & SR & LO & UP).
    rewrite quad_up in UP. rewrite (quad_Nsr root N_sr SR) in LO.
    exists ic, y1, y, a, b, N_end. split; [exact SI|]. split; [exact SC|]. split; [exact PE|]. split; [lra|]. split; [exact A2|]. split; [exact B|]. split; [exact Ey|]. split; [exact IN|]. split; [exact Z|]. lra.
  - destruct (starts_T (potfun_of Quadratic 1) 10 1 0 0 0 quad_V10) as (ic & y1 & SI & SC).
    destruct (C120_time root Quadratic 1 true 10 1 (Some 0) 0 0 (sqrt 2) ic [Fin 0; Fin 0; Fin 0; Fin 0] y1 HR I I ltac:(intros; discriminate) ltac:(discriminate) ltac:(lra) HB PE ltac:(lra) SI eq_refl SC)
      as (y & a & b & t_end & N_sr & A1 & A2 & B & Ey & IN & Z & SR & LO & UP).
    rewrite (quad_Nsr root N_sr SR) in LO.
    exists ic, y1, y, a, b, t_end. split; [exact SI|]. split; [exact SC|]. split; [exact A1|]. split; [exact A2|]. split; [exact B|]. split; [exact Ey|]. split; [exact Z|]. exact LO.
Qed.
(** an evolution meeting every hypothesis of C118, with a state at which inflation has stopped *)
Theorem C118_nonvacuous : exists root ic y0 y a b t, root_spec root /\ phi_end root Quadratic 1 = Ok (sqrt 2) /\ branch Quadratic 10 /\
  sr_init (IT 0 (potfun_of Quadratic 1) true) 10 (Some 1) (Some 0) 0 (kw_of (InN 0)) = Ok ic /\ List.length y0 = List.length (T_idx true) /\
  sr_call ic y0 = Ok (map Fin (y 1)) /\ T_background 0 (potfun_of Quadratic 1) true y a b /\ a < 1 < b /\ 1 <= t < b /\
  T_inflating (potfun_of Quadratic 1) true t (y t) <= 0 /\ sr_phi2N root Quadratic 1 10 = Ok (49/2).
Proof.
  destruct C120_nonvacuous as (root & HR & (_ & _ & _ & _ & _ & _ & _ & _ & PE & _) & (ic & y1 & y & a & b & t_end & SI & SC & A1 & A2 & B & Ey & Z & _)).
  exists root, ic, [Fin 0; Fin 0; Fin 0; Fin 0], y, a, b, t_end. split; [exact HR|]. split; [exact PE|]. split; [cbn; lra|]. split; [exact SI|]. split; [reflexivity|].
  split; [rewrite Ey; exact SC|]. split; [exact B|]. split; [lra|]. split; [lra|]. split; [rewrite Z; lra|].
  pose proof (Nfun_ok root Quadratic 1 (sqrt 2) 10 PE) as X. rewrite (quad_Nsr root _ X) in X. exact X.
Qed.
(** C119: a closed universe has an evolution through phi = 10 at rest; the flat power-law evolution on (1,3) meets the
    hypotheses of the continuation theorem and goes on past t = 3 *)
Theorem C119_nonvacuous :
  (exists y a b, a < 0 < b /\ T_background 1 (potfun_of Quadratic 1) true y a b /\ y 0 = [10; 0; 0; 0]) /\
  (exists y a b, a < 0 < b /\ N_background 1 (potfun_of Quadratic 1) true true y a b /\ y 0 = [10; 1; 0; 0]) /\
  (exists z d, 0 < d /\ T_background 0 (Vexp 10) true z 1 (3 + d) /\ forall t, 1 < t < 3 -> z t = [2 * ln t; 2 / t; 2 * ln t; - / t]).
Proof.
  split; [|split].
  - apply (C119_time 1 (potfun_of Quadratic 1) true 10 0 0 0 0 1); [lra|intros x _; apply potfun_smooth; exact I|].
    unfold T_get_H2, potfun_of. cbn [pV]. unfold V, quad_V. rewrite Rmult_0_r, exp_0. lra.
  - apply (C119_efolds 1 (potfun_of Quadratic 1) true true 10 1 0 0 0 1); [lra|intros x _; apply potfun_smooth; exact I| |lra].
    unfold N_get_H2, potfun_of. cbn [pV]. unfold V, quad_V. rewrite Rmult_0_r, exp_0. lra.
  - destruct (C119_time_continues 0 (Vexp 10) true (-1) 7 (-1) 3 (-1) 7 (10 * exp (-7) / 3) (1/2)) as (d & Hd & EX); [pose proof (exp_pos (-7)); lra|lra|intros x _; apply Vexp_smooth| |].
    + intros phi dphi N Hp Hd Hn. unfold T_get_H2, Vexp. cbn [pV]. pose proof (pow2_ge_0 dphi).
      assert (X : exp (-7) <= exp (- phi)) by (destruct (Req_dec phi 7) as [->|]; [right; f_equal; ring|left; apply exp_increasing; lra]). lra.
    + destruct (EX y_flat 1 3 2 flat_background ltac:(lra)) as (z & B & E); [|exists z, d; split; [exact Hd|]; split; [exact B|exact E]].
      intros t Ht. unfold T_phi, T_dphi, T_N, y_flat. cbn.
      assert (L0 : 0 < ln t) by (rewrite <- ln_1; apply ln_increasing; lra).
      assert (L1 : ln t < 3) by (apply exp_lt_inv; rewrite exp_ln by lra; pose proof (exp_ineq1 3 ltac:(lra)); lra).
      assert (0 < 2 / t <= 1). { split; [apply Rdiv_lt_0_compat; lra|]. apply Rmult_le_reg_r with t; [lra|]. replace (2 / t * t) with 2 by (field; lra). lra. }
      lra.
Qed.
