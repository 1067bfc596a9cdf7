(** Concrete cases that meet the hypotheses of C12, C13, C35, C38, C45, C74 (those whose example is not next to the theorem). *)
From Coq Require Import Reals List String ZArith Bool Lra Lia.
From Verif Require Import Base Model.Equations Model.Background Model.Float Model.Solution Model.Interp Model.State Model.Reheating
  Model.Potentials Model.SlowRoll Model.ApproxPower Model.Calibrate Model.InitCond Model.BigBang Model.Shooting Model.Solver
  Spec.PotentialSpec Spec.SlowRollSpec Spec.SolutionSpec Spec.CalibSpec Spec.SolverSpec Spec.BackgroundSpec
  Proofs.FloatLemmas Proofs.SRN Proofs.BackgroundEx Proofs.CalibTotal
  Properties.SlowRollProps Properties.BracketProps Properties.CtorProps Properties.BackgroundProps Properties.DynProps Properties.CalibProps
  Properties.InitProps Properties.ShootProps Properties.SolverProps Properties.PipelineProps.
Import ListNotations.
Open Scope R_scope.
Open Scope string_scope.

(** C12: with a sound and complete root finder sr_phi2N of a quartic double well does return a number, and dw4_phi2efolds the same *)
Theorem C12_nonvacuous : exists root N, root_spec root /\ sr_phi2N root (DoubleWell4 20) 1 10 = Ok N /\ dw4_phi2efolds 10 20 = Ok N.
Proof.
  destruct C87_root_finder_exists as [root [HR HT]].
  destruct (C87_double_well root 1 (DoubleWell4 20) 4 20 HR HT ltac:(lra) ltac:(lra) ltac:(lra)) as [e [H1 _]].
  { right. split; reflexivity. }
  pose proof (Nfun_ok root (DoubleWell4 20) 1 e 10 H1) as HN. eexists root, _. split; [exact HR|]. split; [exact HN|].
  apply (C12_phi2efolds root 1 20 10 HR ltac:(lra) ltac:(lra) ltac:(lra)). exact HN.
Qed.
(** C13: an exact solution in an exponential potential, rolling *)
Theorem C13_nonvacuous : T_background 0 (Vexp 10) true y_flat 1 3 /\ T_dphi true y_flat 2 <> 0.
Proof. split; [apply C90_nonvacuous|]. cbn. lra. Qed.
(** C38: a successful calibration *)
Theorem C38_nonvacuous U : exists s' w, consts_ok exC /\ sane ex36 /\ background (exs 0) (exb 0) /\
  calibrate_scale_factor exC exS (mkaeqs AT 0 U) ex36 (exs 0) = (s', Ok w).
Proof. destruct (C36_nonvacuous U) as (s' & w & E & SN & _). exists s', w. split; [exact exC_ok|]. split; [exact SN|]. split; [exact (exs_bg 0)|exact E]. Qed.
(** C45: all three answers occur *)
Theorem C45_nonvacuous :
  is_instant_reheating None None None None None = Ok true /\ is_instant_reheating None None (Some (1/3)) (Some 0) None = Ok true /\
  is_instant_reheating None None (Some (1/3)) (Some 2) None = Raise ValueError /\ is_instant_reheating None (Some 5) (Some 0) None None = Ok false /\
  is_instant_reheating (Some 50) None None None None = Ok false.
Proof.
  unfold is_instant_reheating, given_eq, given_ne. cbn [is_none negb andb orb].
  repeat (split; [repeat match goal with |- context [Req_EM_T ?x ?y] => destruct (Req_EM_T x y); try (exfalso; lra) end; reflexivity|]). reflexivity.
Qed.
(** C74: a point on the plateau with a dip *)
Theorem C74_nonvacuous : let P := StarobinskyGaussianDip 5 (1/100) (1/10) in ~ featureless P /\ in_domain P 4 /\ 1 + feature_F P 4 <> 0 /\ (0 <= 1/2 < 1 ^ 4).
Proof.
  cbn zeta. split; [apply C03_nonvacuous|]. split; [apply C03_nonvacuous|]. split; [|lra].
  cbn [feature_F]. unfold gd_F. replace (- (4 - 5)^2 / (2 * (1/10)^2)) with (-50) by field.
  assert (exp (-50) < 1) by (rewrite <- exp_0; apply exp_increasing; lra). pose proof (exp_pos (-50)). lra.
Qed.

(** C35: the shooting class ISIC_Nt returns (the trial run from phi = 0 gives exactly the requested 4 e-folds) *)
Theorem C35_nonvacuous : forall fmt_e verbose, exists ic' y,
  nt_init q91 [0] (Some 0) None 100 (kw_of (InN 0)) = Ok ic91 /\
  nt_call fmt_e (fun _ _ _ _ _ => (run_to 4, false)) find91 verbose ic91 4 [0] (repeat (Fin 0) 3) = Ok (ic', y, 0).
Proof.
  intros fmt_e verbose. destruct ic91_call as [ic' [EC [EX EE]]]. exists ic', (map Fin [0; - sqrt (1 + 0^2); 0]). split; [exact ic91_init|].
  unfold nt_call. change (ic_eqs ic91) with q91. change (ic_t ic91) with (Some 0). change (ic_eta ic91) with (@None R). change (ic_x_end ic91) with 100. change (ic_input ic91) with (InN 0).
  unfold find91.
  destruct (C34_zero fmt_e (fun _ _ _ _ _ => (run_to 4, false)) verbose q91 (Some 0) None 100 (InN 0) 4 0 ic91 0 ic' [0; - sqrt (1 + 0^2); 0] 0 eq_refl ltac:(lra) ic91_init eq_refl EC EX (run_to_contract 4 _)) as [_ Z].
  rewrite Z; [|apply run_to_N_tot]. destruct (Req_EM_T 0 0); [|lra]. cbn [bind]. unfold shoot_finish.
  change (ic_eqs ic91) with q91. change (ic_t ic91) with (Some 0). change (ic_eta ic91) with (@None R). change (ic_x_end ic91) with 100. change (ic_input ic91) with (InN 0).
  rewrite ic91_init. cbn [bind]. rewrite EC. reflexivity.
Qed.
(** ... and so does ISIC_NsOk: the trial run from phi = 0 gives exactly the requested N_star = 2 *)
Theorem C35_N_star_nonvacuous : forall fmt_e euler z3, exists o ic' y,
  ns_init exF exq 2 1 exh [0] (Some 0) None 100 (kw_of (InN 0)) = Ok o /\
  ns_call exF euler z3 exS fmt_e ivp_exr find91 true o (repeat (Fin 0) 3) = Ok (ic', y, 0).
Proof.
  intros fmt_e euler z3. destruct (C86_nonvacuous fmt_e euler z3) as (a0 & G & _ & _ & Z).
  assert (HA : admissible (-1) (pV exU 0) (InN 0)). { cbn [admissible pV exU]. rewrite Rmult_0_r, exp_0. lra. }
  pose proof (is_from_N exq 0 (Some 0) None 100 0 HA) as E.
  destruct (is_call_spec exq 0 (Some 0) None 100 (InN 0) (Fin 0) (Fin (- -1 / (pV exU 0 / 2 * exp (2 * 0) - -1))) (Fin (sqrt (pV exU 0 / 2 * exp (2 * 0) - -1))) (Fin (sqrt (pV exU 0 / 2 - -1 * exp (-2 * 0)))) eq_refl) as [_ B].
  destruct B as [y [_ Cc]]; [intros [D _]; discriminate|]. specialize (Cc (repeat (Fin 0) 3) eq_refl).
  eexists (mkns (is_obj exq 0 (Some 0) None 100 (InN 0) _ _ _ _) 2 1 exh [0] (ln a0)), _, y. split.
  - unfold ns_init. destruct (Req_EM_T 1 0); [lra|]. cbn [last_of last bind]. change (last_of [0]) with (@Ok R 0). cbn [bind]. rewrite E. cbn [bind]. rewrite G. reflexivity.
  - unfold ns_call. cbn [ns_ic ns_N_star ns_OK0 ns_h ns_N0 ns_bracket].
    set (ob := is_obj _ _ _ _ _ _ _ _ _ _) in *. change (ic_eqs ob) with exq. change (ic_t ob) with (Some 0). change (ic_eta ob) with (@None R). change (ic_x_end ob) with 100. change (ic_input ob) with (InN 0).
    unfold find91. rewrite Z. destruct (Req_EM_T 0 0); [|lra]. cbn [bind]. unfold shoot_finish.
    change (ic_eqs ob) with exq. change (ic_t ob) with (Some 0). change (ic_eta ob) with (@None R). change (ic_x_end ob) with 100. change (ic_input ob) with (InN 0).
    rewrite E. cbn [bind]. fold ob. rewrite Cc. reflexivity.
Qed.
