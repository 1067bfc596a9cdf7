(** Which attributes the calibration touches. *)
From Coq Require Import Reals List String ZArith Bool Lra Lia.
From Verif Require Import Base Model.Equations Model.Float Model.Solution Model.Interp Model.State Model.Reheating
  Model.ApproxPower Model.Calibrate Spec.CalibSpec Proofs.DictLemmas Proofs.StateLemmas.
Import ListNotations.
Open Scope R_scope.
Open Scope string_scope.

Definition power_attrs : list string :=
  ["P_scalar_approx"; "P_tensor_approx"; "logk2logP_s"; "logk2logP_t";
   "P_s_approx_CGS0"; "P_t_approx_CGS0"; "P_s_approx_CGS1"; "P_t_approx_CGS1";
   "P_s_approx_CGS2"; "P_t_approx_CGS2"; "P_s_approx_CGS3"; "P_t_approx_CGS3";
   "P_s_approx_LLMS"; "P_t_approx_LLMS"; "P_s_approx_STE"; "P_t_approx_STE";
   "P_s_approx_ARBDS1"; "P_t_approx_ARBDS1"; "P_s_approx_ARBDS2"; "P_t_approx_ARBDS2";
   "P_s_approx_ARBDS3"; "P_t_approx_ARBDS3"].
Definition derived_attrs : list string := ["A_s"; "n_s"; "n_run"; "n_runrun"; "A_t"; "n_t"; "r"].

Ltac touch2 := repeat first [touch1 | progress cbn [String.append] |
  lazymatch goal with |- touches _ (?m _ _ _ _ _ _ _ _ _) => unfold m | |- touches _ (?m _ _ _ _ _ _ _ _) => unfold m | |- touches _ (?m _ _ _ _ _ _ _) => unfold m | |- touches _ (?m _ _ _ _ _ _) => unfold m
   | |- touches _ (?m _ _ _ _ _) => unfold m | |- touches _ (?m _ _ _ _) => unfold m | |- touches _ (?m _ _ _) => unfold m
   | |- touches _ (?m _ _) => unfold m | |- touches _ (?m _) => unfold m | |- touches _ ?m => unfold m end].
Lemma touches_CGS C S q o ord : touches power_attrs (derive_CGS C S q o ord).
Proof. unfold power_attrs. touch2. Qed.
Lemma touches_LLMS C S q o : touches power_attrs (derive_LLMS C S q o).
Proof. unfold power_attrs. touch2. Qed.
Lemma touches_STE C S q o : touches power_attrs (derive_STE C S q o).
Proof. unfold power_attrs. touch2. Qed.
Lemma touches_ARBDS C S q o ord : touches power_attrs (derive_ARBDS C S q o ord).
Proof. unfold power_attrs. touch2. Qed.
Lemma touches_derive C S q me ord o : touches (power_attrs ++ derived_attrs) (derive_approx_power C S q me ord o).
Proof.
  unfold derive_approx_power. apply touches_bind.
  - eapply touches_incl; [|apply incl_appl, incl_refl].
    repeat match goal with |- touches _ (if ?b then _ else _) => destruct b end;
      [apply touches_CGS|apply touches_LLMS|apply touches_STE|apply touches_ARBDS|apply touches_ret].
  - intros []. unfold power_attrs, derived_attrs. cbn [app]. touch.
Qed.
Lemma touches_P_approx C S q st k me ord o : touches power_attrs (P_approx C S q st k me ord o).
Proof.
  unfold P_approx, call_spl.
  assert (X : forall key, touches power_attrs (v <<- getS key; retM (exp (spl_eval S (fst (fst v)) (snd (fst v)) (snd v) 0 (ln k))))) by (intros; touch).
  repeat match goal with
  | |- touches _ (if ?b then _ else _) => destruct b
  | |- touches _ (bindM (getS _) _) => apply X
  | |- touches _ (bindM (hasattr _) _) => apply touches_bind; [apply touches_hasattr|intros []]
  | |- touches _ (bindM (retM _) _) => apply touches_bind; [apply touches_ret|intros ?]
  | |- touches _ (bindM (derive_LLMS _ _ _ _) _) => apply touches_bind; [apply touches_LLMS|intros ?]
  | |- touches _ (bindM (derive_STE _ _ _ _) _) => apply touches_bind; [apply touches_STE|intros ?]
  | |- touches _ (bindM (derive_ARBDS _ _ _ _ _) _) => apply touches_bind; [apply touches_ARBDS|intros ?]
  end.
Qed.

(** attributes the calibration itself may change *)
Definition reh_attrs : list string :=
  ["rho_reh_GeV"; "rho_reh_mp4"; "_N_reh"; "N_reh"; "w_reh"; "DeltaN_reh"; "DeltaN_minus1"; "N_end"].
Definition flat_N_star_attrs : list string :=
  ["N_star"; "_N_cross"; "_logaH_star"; "H_star"; "delta_N_calib"] ++ reh_attrs.
Lemma touches_flat_N_star C a : touches flat_N_star_attrs (flat_N_star C a).
Proof. unfold flat_N_star_attrs, reh_attrs. cbn [app]. unfold flat_N_star, flat_N_star_reheating, set_nans. cbn [fold_right]. touch. Qed.
Lemma touches_flat_reheating C a : touches flat_N_star_attrs (flat_reheating C a).
Proof. unfold flat_N_star_attrs, reh_attrs. cbn [app]. unfold flat_reheating, flat_reheating_cases, set_nans. cbn [fold_right]. touch. Qed.
Definition override_attrs : list string := ["delta_N_calib"; "_logaH_star"; "_N_cross"; "_N_reh"; "_N_end"; "N_star"].
Lemma touches_flat_background a g : touches override_attrs (flat_background a g).
Proof. unfold override_attrs. unfold flat_background, copy. touch. Qed.
Definition finish_attrs : list string := ["a0_Mpc"; "inflation_mask"; "logk"].
Lemma touches_flat_finish C : touches finish_attrs (flat_finish C).
Proof. unfold finish_attrs. unfold flat_finish, set_logk. touch. Qed.
Lemma touches_curved_finish C : touches ["inflation_mask"; "logk"; "_logaH_star"; "_N_cross"; "N_star"] (curved_finish C).
Proof. unfold curved_finish, set_logk. touch. Qed.
Definition curved_attrs : list string := ["Omega_K0"; "a0_Mpc"; "a0"; "N0"; "rho_reh_GeV"; "rho_reh_mp4"; "_N_reh"; "w_reh"; "DeltaN_reh"; "DeltaN_minus1"].
Lemma touches_curved_Omega_K0 C a h : touches curved_attrs (curved_Omega_K0 C a h).
Proof. unfold curved_attrs. unfold curved_Omega_K0, set_nans. cbn [fold_right]. touch. Qed.
Lemma touches_curved_reheating C a h : touches curved_attrs (curved_reheating C a h).
Proof. unfold curved_attrs. unfold curved_reheating, curved_reheating_cases. touch. Qed.
Definition common_attrs : list string := ["N"; "N_beg"; "N_end"; "N_reh"; "N_cross"; "N_dagg"; "k_iMpc"; "_k"; "cHH_Mpc"; "cHH_end_Mpc"].
Lemma touches_common C a : touches common_attrs (calibrate_common C a).
Proof. unfold common_attrs. unfold calibrate_common. touch. Qed.
