(** C78 for the default starting solutions: whatever the potential, the default pair is admissible, and the powers
    reported with it are those reported with any other pair of independent starting solutions. *)
From Coq Require Import Reals List String Lra Lia Classical.
From Coquelicot Require Import Coquelicot.
From Verif Require Import Base Model.Potentials Model.PertIC Model.Equations Model.Background Model.Float Model.Perturbations Model.Oscode Spec.BackgroundSpec Spec.PerturbationSpec Spec.OscodeSpec
  Spec.SpectrumSpec Properties.OscodeProps Properties.ModeProps Properties.SpectrumProps Proofs.BackgroundEx Properties.PertProps.
Import ListNotations.
Open Scope R_scope.
Open Scope string_scope.

Lemma default_pair P : exists x1 d1 x2 d2, perturbation_ic P = [x1; d1; x2; d2] /\ x1 * d2 - d1 * x2 <> 0.
Proof. destruct P; (exists 1, 0, 0, 1; split; [reflexivity|lra]). Qed.

Theorem C78_default_start : forall osc med P b k vs drop fac_beg fac_end x1 d1 x2 d2 p p' time i j xi xj s0 xs ss ues ves uet vet vac,
  ob_ic b = perturbation_ic P ->
  solve_oscode osc med b (KScalar k) (Some vs) drop fac_beg fac_end None false = Ok (RetMode (Some p)) ->
  solve_oscode osc med b (KScalar k) (Some vs) drop fac_beg fac_end (Some [x1; d1; x2; d2]) false = Ok (RetMode (Some p')) ->
  x1 * d2 - d1 * x2 <> 0 ->
  window (ob_logaH b) (map s_N (ob_s b)) k fac_beg fac_end = Ok (i, j) -> (i <= j)%nat ->
  ob_indep b = (if time : bool then "t" else "_N") ->
  nth_error (ob_x b) i = Some xi -> nth_error (ob_x b) j = Some xj -> nth_error (ob_s b) i = Some s0 ->
  (j < List.length (ob_s b))%nat -> is_range xs (ob_x b) i j -> is_range ss (ob_s b) i j -> median_of_equal med ->
  integrates osc xs xi xj (map (freq2 time false (ob_K b) k (ob_U b)) ss) (map (damp time false (ob_K b) k (ob_U b)) ss) ues ves ->
  integrates osc xs xi xj (map (freq2 time true (ob_K b) k (ob_U b)) ss) (map (damp time true (ob_K b) k (ob_U b)) ss) uet vet ->
  In vac vs -> In vac ["k"; "HD"; "RST"] ->
  exists Ps Pt, dget vac (pP_s p) = Ok Ps /\ dget vac (pP_s p') = Ok Ps /\ dget vac (pP_t p) = Ok Pt /\ dget vac (pP_t p') = Ok Pt.
Proof.
  intros osc med P b k vs drop fb fe x1 d1 x2 d2 p p' time i j xi xj s0 xs ss ues ves uet vet vac EP R R' WR W IJ EI Exi Exj Es0 Lj Rx Rs M IS IT Hin Hv.
  destruct (default_pair P) as (q1 & e1 & q2 & e2 & ED & WD). rewrite ED in EP.
  assert (RD : solve_oscode osc med b (KScalar k) (Some vs) drop fb fe (Some [q1; e1; q2; e2]) false = Ok (RetMode (Some p))) by (rewrite <- EP; exact R).
  destruct (vacuum_exists time false (ob_K b) k (ob_U b) vac s0 Hv) as [us Vs]. destruct (vacuum_exists time true (ob_K b) k (ob_U b) vac s0 Hv) as [ut Vt].
  destruct (C89_mode_power osc med b k vs drop fb fe q1 e1 q2 e2 p time i j xi xj s0 xs ss ues ves uet vet vac us ut RD W IJ EI Exi Exj Es0 Lj Rx Rs WD M IS IT Hin Vs Vt) as [A1 A2].
  destruct (C89_mode_power osc med b k vs drop fb fe x1 d1 x2 d2 p' time i j xi xj s0 xs ss ues ves uet vet vac us ut R' W IJ EI Exi Exj Es0 Lj Rx Rs WR M IS IT Hin Vs Vt) as [B1 B2].
  destruct (classic (vac = "RST" /\ k < 1 /\ ob_K b = 1 /\ drop = true)) as [(-> & K1 & EK & ->)|ND].
  - exists (1 / 10^30). eexists. split; [apply (C58_closed_large_scales_partial osc med b k vs fb fe [q1; e1; q2; e2] p Hin EK K1 RD)|].
    split; [apply (C58_closed_large_scales_partial osc med b k vs fb fe [x1; d1; x2; d2] p' Hin EK K1 R')|]. split; [exact A2|exact B2].
  - do 2 eexists. split; [exact (A1 ND)|]. split; [exact (B1 ND)|]. split; [exact A2|exact B2].
Qed.
(** the closed background of C115 with the potential's default pair *)
Theorem C78_default_nonvacuous : exists p p', ob_ic ex_bT = perturbation_ic Starobinsky /\
  solve_oscode osc_T med_hd ex_bT (KScalar 2) (Some ["k"; "RST"]) true 0 (1/4) None false = Ok (RetMode (Some p)) /\
  solve_oscode osc_T med_hd ex_bT (KScalar 2) (Some ["k"; "RST"]) true 0 (1/4) (Some [1; 0; 0; 1]) false = Ok (RetMode (Some p')) /\
  window (ob_logaH ex_bT) (map s_N (ob_s ex_bT)) 2 0 (1/4) = Ok (0, 1)%nat /\
  (forall tensor : bool, integrates_exactly osc_T (fun t => damp true tensor 1 2 (Vexp 4) (T_sample 1 (Vexp 4) true y_closed t)) (fun t => freq2 true tensor 1 2 (Vexp 4) (T_sample 1 (Vexp 4) true y_closed t))
     1 (exp 13) ex_ts (exp 1) (exp 12)).
Proof.
  destruct C115_nonvacuous as (pT & pN & C). cbv zeta in C.
  destruct C as (C1 & _ & C3 & _ & _ & C6 & _ & C8 & C9 & _ & C11 & _ & C13 & C14 & C15 & C16 & _).
  exists pT, pT. split; [reflexivity|]. split; [exact C11|]. split; [exact C11|]. split; [exact C13|exact C16].
Qed.
