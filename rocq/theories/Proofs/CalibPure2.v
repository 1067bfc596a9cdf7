(** Refinement, continued: reheating in flat universes, both methods in curved universes. *)
From Coq Require Import Reals List String ZArith Bool Lra Lia.
From Verif Require Import Base Model.Equations Model.Float Model.Solution Model.Interp Model.State Model.Reheating
  Model.ApproxPower Model.Calibrate Spec.CalibSpec Proofs.BaseLemmas Proofs.FloatLemmas Proofs.DictLemmas Proofs.StateLemmas Proofs.CalibFrame Proofs.CalibPure.
Import ListNotations.
Open Scope R_scope.
Open Scope string_scope.

Definition base_end (C : consts) (a : calargs) (b : bg) : R := 0 - lgg C a - lgV C (b_Vend b).
(** DeltaN_minus1, DeltaN_reh, w_reh, rho_reh_GeV *)
Definition pure_reh_cases (C : consts) (a : calargs) (b : bg) : res (R * fl * fl * fl) :=
  do i <- is_instant_reheating (ca_N_star a) (ca_rho_reh_GeV a) (ca_w_reh a) (ca_DeltaN_reh a) (ca_DeltaN_minus1 a);
  if (i : bool) then Ok (0, Fin 0, Fin (1/3), Fin (GeV C (3/2 * b_Vend b)))
  else match ca_DeltaN_minus1 a with
  | Some dm =>
      if (is_given (ca_w_reh a) || is_given (ca_DeltaN_reh a))%bool then Raise NotImplementedError
      else match ca_rho_reh_GeV a with
      | Some rho =>
          let dn := 0 - lgg C a + lgT C (mp4 C rho) - (base_end C a b - dm) in
          Ok (dm, Fin dn, fsub (fdiv (Fin (ln (3/2 * b_Vend b / mp4 C rho))) (Fin (3 * dn))) (Fin 1), Fin rho)
      | None => Ok (dm, NaN, NaN, NaN)
      end
  | None =>
      match ca_w_reh a, ca_DeltaN_reh a, ca_rho_reh_GeV a with
      | Some w, Some dn, None =>
          Ok (dn / 4 * (1 - 3 * w), Fin dn, Fin w, Fin (GeV C (3/2 * b_Vend b * exp (-3 * (1+w) * dn))))
      | Some w, None, Some rho =>
          let dn := ln (3/2 * b_Vend b / mp4 C rho) / (3 * (1+w)) in
          Ok (dn / 4 * (1 - 3 * w), Fin dn, Fin w, Fin rho)
      | _, _, _ => Raise ValueError
      end
  end.
Definition pure_flat_reheating (C : consts) (a : calargs) (b : bg) : res cout :=
  if bad_reheating a then Raise ValueError
  else
    do r <- pure_reh_cases C a b;
    let dm := fst (fst (fst r)) in let dn := snd (fst (fst r)) in
    let dc := base_end C a b - dm - b_end b in
    let ls := 0 + lgK C - dc in
    if Rlt_dec ls (b_beg b + ln (b_Hbeg b)) then Raise InsufficientInflationError
    else if Rlt_dec (b_end b + ln (b_Hend b)) ls then Raise InsufficientInflationError
    else
      do nc <- interp1d (combine (maskedL b) (maskedN b)) ls;
      Ok (mkcout dc ls nc (b_end b - nc) (Fin dm) (fadd (Fin (b_end b)) dn) dn (snd (fst r)) (snd r) 0 1 0).

Lemma bad_false a : bad_reheating a = false -> (forall d, ca_DeltaN_reh a = Some d -> 0 <= d) /\ (forall w, ca_w_reh a = Some w -> -1/3 <= w).
Proof.
  unfold bad_reheating. intros H. apply orb_false_elim in H. destruct H as [H1 H2]. split.
  - intros d E. rewrite E in H1. destruct (Rlt_dec d 0); [discriminate|lra].
  - intros d E. rewrite E in H2. destruct (Rlt_dec d (-1/3)); [discriminate|lra].
Qed.
Lemma bad_true a : bad_reheating a = true -> (exists d, ca_DeltaN_reh a = Some d /\ d < 0) \/ (exists w, ca_w_reh a = Some w /\ w < -1/3).
Proof.
  unfold bad_reheating. intros H. apply orb_prop in H. destruct H as [H|H].
  - left. destruct (ca_DeltaN_reh a) as [d|]; [|discriminate]. destruct (Rlt_dec d 0); [eauto|discriminate].
  - right. destruct (ca_w_reh a) as [d|]; [|discriminate]. destruct (Rlt_dec d (-1/3)); [eauto|discriminate].
Qed.

Section FlatR.
Variables (C : consts) (a : calargs) (s : attrs) (b : bg).
Hypothesis HC : consts_ok C.
Hypothesis HA : sane a.
Hypothesis HB : background s b.
Hypothesis H0 : scal s "N0" 0.
Hypothesis Ha0 : scal s "a0" 1.
Hypothesis HOm : scal s "Omega_K0" 0.

(** state after the case distinction *)
Definition reh_staged (s' : attrs) (Nend dm : R) (dn w rho : fl) : Prop :=
  scal s' "N_end" Nend /\ scal s' "DeltaN_minus1" dm /\ dict_get "DeltaN_reh" s' = Some (VF dn) /\
  dict_get "w_reh" s' = Some (VF w) /\ dict_get "rho_reh_GeV" s' = Some (VF rho).
Lemma flat_reheating_cases_refines s1 : bad_reheating a = false ->
  (forall k, k <> "N_end" -> dict_get k s1 = dict_get k s) -> scal s1 "N_end" (base_end C a b) ->
  match pure_reh_cases C a b with
  | Raise e => snd (flat_reheating_cases C a s1) = Raise e
  | Ok (dm, dn, w, rho) => snd (flat_reheating_cases C a s1) = Ok tt /\ reh_staged (fst (flat_reheating_cases C a s1)) (base_end C a b - dm) dm dn w rho
  end.
Proof.
  destruct HB as (BK & BN & BH & BL & BM & Bb & Be & Bt & BHe & BV & Blb & Ble & _ & _ & _ & _ & PHe & PV & _).
  intros HBad F EN. unfold scal, arr in *. apply bad_false in HBad. destruct HBad as [Bd Bw].
  assert (V1 : dict_get "V_end" s1 = Some (VF (Fin (b_Vend b)))) by (rewrite F by discriminate; exact BV).
  assert (N1 : dict_get "N0" s1 = Some (VF (Fin 0))) by (rewrite F by discriminate; exact H0).
  unfold flat_reheating_cases, pure_reh_cases.
  destruct (is_instant_reheating _ _ _ _ _) as [[|]|e]; cbn [bind].
  - rewrite run_bind_lift. repeat rewrite run_bind_setF. erewrite run_bind_getF by rd. rewrite run_bind_setF. erewrite run_bind_getF by rd. cbn [fmul].
    rewrite (rho_GeV_fin C HC) by lra. split; [reflexivity|]. unfold reh_staged, scal, setF, setM; cbn [fst].
    replace (base_end C a b - 0) with (base_end C a b) by ring. repeat split; gs.
  - rewrite run_bind_lift. destruct (ca_DeltaN_minus1 a) as [dm|].
    + rewrite run_bind_setF. erewrite run_bind_getF by rd. rewrite run_bind_setF. cbn [fsub].
      destruct (is_given (ca_w_reh a) || is_given (ca_DeltaN_reh a))%bool; [reflexivity|].
      destruct (ca_rho_reh_GeV a) as [rho|] eqn:ER.
      * assert (HR : 0 < rho) by exact (proj2 HA _ ER). pose proof (mp4_pos C HC rho HR) as HP.
        repeat (rewrite run_bind_setF). erewrite run_bind_getF by rd. erewrite run_bind_getF by rd.
        rewrite rho_mp4_fin, (log_g0_fin C HC), (log_gth_fin a HA), (log_Treh_fin C HC) by exact HP.
        rewrite run_bind_setF. cbn [fadd fsub]. erewrite run_bind_getF by rd. erewrite run_bind_getF by rd. rewrite run_bind_setF. cbn [fsub].
        erewrite run_bind_getF by rd. erewrite run_bind_getF by rd. rewrite log_V_rho_fin by assumption. cbn [bind fmul]. cbv zeta.
        replace (0 - ln (pypow (45 / PI ^ 2) (1 / 4) * pypow (g0 C) (-1 / 3)) - ln (ca_g_th a) / 12 + lgT C (mp4 C rho))
          with (0 - lgg C a + lgT C (mp4 C rho)) by (unfold lgg; ring).
        split; [reflexivity|]. unfold reh_staged, scal, setF, setM; cbn [fst]. repeat split; gs.
      * split; [reflexivity|]. unfold set_nans, setF, setM, retM, bindM. cbn [fold_right fst snd]. unfold reh_staged, scal. repeat split; gs.
    + destruct (ca_w_reh a) as [w|], (ca_DeltaN_reh a) as [dn|], (ca_rho_reh_GeV a) as [rho|] eqn:ER; try reflexivity.
      * repeat (rewrite run_bind_setF). erewrite run_bind_getF by rd. erewrite run_bind_getF by rd. rewrite run_bind_setF. cbn [fsub].
        erewrite run_bind_getF by rd. rewrite run_bind_setF. erewrite run_bind_getF by rd. cbn [fmul].
        rewrite (rho_GeV_fin C HC) by (apply Rmult_lt_0_compat; [lra|apply exp_pos]).
        split; [reflexivity|]. unfold reh_staged, scal, setF, setM; cbn [fst]. repeat split; gs.
      * assert (HR : 0 < rho) by exact (proj2 HA _ ER). pose proof (mp4_pos C HC rho HR) as HP. specialize (Bw w eq_refl).
        repeat (rewrite run_bind_setF). erewrite run_bind_getF by rd. erewrite run_bind_getF by rd. rewrite rho_mp4_fin, log_V_rho_fin by assumption.
        rewrite fdiv_fin by lra. rewrite run_bind_setF. erewrite run_bind_getF by rd. rewrite fdiv_fin by lra. rewrite run_bind_setF. cbn [fmul].
        erewrite run_bind_getF by rd. erewrite run_bind_getF by rd. cbn [fsub].
        split; [reflexivity|]. unfold reh_staged, scal, setF, setM; cbn [fst]. repeat split; gs.
  - reflexivity.
Qed.

Lemma flat_reheating_refines : refines (flat_reheating C a s) (pure_flat_reheating C a b).
Proof.
  pose proof HB as (BK & BN & BH & BL & BM & Bb & Be & Bt & BHe & BV & Blb & Ble & _ & _ & _ & _ & PHe & PV & _).
  unfold scal, arr in *. unfold flat_reheating, pure_flat_reheating.
  destruct (bad_reheating a) eqn:EB; [reflexivity|].
  erewrite run_bind_getF by rd. erewrite run_bind_getF by rd.
  rewrite (log_g0_fin C HC), (log_gth_fin a HA), (log_Vend_fin C HC) by exact PV. rewrite run_bind_setF. cbn [fsub].
  replace (0 - ln (pypow (45 / PI ^ 2) (1 / 4) * pypow (g0 C) (-1 / 3)) - ln (ca_g_th a) / 12 - lgV C (b_Vend b))
    with (base_end C a b) by (unfold base_end, lgg; ring).
  set (s1 := setattr "N_end" (VF (Fin (base_end C a b))) s).
  assert (F : forall k, k <> "N_end" -> dict_get k s1 = dict_get k s) by (intros k N; unfold s1, setattr; apply get_set_neq, N).
  pose proof (flat_reheating_cases_refines s1 EB F ltac:(unfold s1, scal; gs)) as R.
  assert (T : touches ["DeltaN_reh"; "w_reh"; "DeltaN_minus1"; "rho_reh_mp4"; "rho_reh_GeV"; "N_reh"; "_N_reh"; "N_end"] (flat_reheating_cases C a)).
  { unfold flat_reheating_cases, set_nans. cbn [fold_right]. touch. }
  unfold bindM at 1. destruct (flat_reheating_cases C a s1) as [s2 r2] eqn:E2. cbn [fst snd] in R.
  assert (F2 : forall k, ~ In k ["DeltaN_reh"; "w_reh"; "DeltaN_minus1"; "rho_reh_mp4"; "rho_reh_GeV"; "N_reh"; "_N_reh"; "N_end"] -> dict_get k s2 = dict_get k s).
  { intros k N. rewrite (T _ _ _ E2 k N). apply F. intros ->. apply N. cbn [In]. tauto. }
  clearbody s1. clear F T E2.
  destruct (pure_reh_cases C a b) as [[[[dm dn] w] rho]|e] eqn:EP; cbn [bind].
  2:{ cbn [fst snd] in R. subst r2. reflexivity. }
  destruct R as [-> (R1 & R2 & R3 & R4 & R5)]. unfold scal in *. cbn [fst snd].
  assert (NI : forall k, dict_get k s2 = dict_get k s -> forall v, dict_get k s = Some v -> dict_get k s2 = Some v) by (intros ? -> ?; auto).
  assert (G1 := NI "_N_end" (F2 "_N_end" ltac:(ni)) _ Be).
  assert (G2 := NI "_logaH" (F2 "_logaH" ltac:(ni)) _ BL).
  assert (G3 := NI "inflation_mask" (F2 "inflation_mask" ltac:(ni)) _ BM).
  assert (G4 := NI "_N" (F2 "_N" ltac:(ni)) _ BN).
  assert (G5 := NI "_logaH_beg" (F2 "_logaH_beg" ltac:(ni)) _ Blb).
  assert (G6 := NI "_logaH_end" (F2 "_logaH_end" ltac:(ni)) _ Ble).
  assert (G7 := NI "N0" (F2 "N0" ltac:(ni)) _ H0).
  assert (G8 := NI "a0" (F2 "a0" ltac:(ni)) _ Ha0).
  assert (G9 := NI "Omega_K0" (F2 "Omega_K0" ltac:(ni)) _ HOm).
  clear NI F2.
  erewrite run_bind_getF by rd. erewrite run_bind_getF by rd. rewrite run_bind_setF. cbn [fsub]. erewrite run_bind_getF by rd.
  rewrite (flogK C HC). rewrite run_bind_setF. cbn [fadd fsub].
  erewrite run_bind_getA by rd. erewrite run_bind_getB by rd. erewrite run_bind_getA by rd.
  erewrite run_bind_getF by rd. erewrite run_bind_getF by rd. erewrite run_bind_getF by rd.
  rewrite !select_map. fold (maskedN b). fold (maskedL b). cbn [flt]. cbv zeta.
  set (dc := base_end C a b - dm - b_end b). set (ls := 0 + lgK C - dc).
  destruct (Rlt_dec ls (b_beg b + ln (b_Hbeg b))) as [L1|L1]; [reflexivity|].
  destruct (Rlt_dec (b_end b + ln (b_Hend b)) ls) as [L2|L2]; [reflexivity|]. cbn [orb].
  rewrite run_bind_bind, interp_fl_fin. destruct (interp1d _ ls) as [nc|e]; [|reflexivity]. cbn [bind].
  rewrite run_bind_lift, run_bind_setF. erewrite run_bind_getF by rd. rewrite run_bind_setF. cbn [fsub].
  erewrite run_bind_getF by rd.
  split; [reflexivity|]. unfold staged, scal, setF, setM. cbn [fst snd o_dc o_ls o_nc o_ns o_dm o_nreh o_dn o_w o_rho o_N0 o_a0 o_OmK].
  repeat split; gs.
Qed.
End FlatR.
