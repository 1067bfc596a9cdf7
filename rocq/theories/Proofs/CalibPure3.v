(** Refinement, continued: curved universes. *)
From Coq Require Import Reals List String ZArith Bool Lra Lia.
From Verif Require Import Base Model.Equations Model.Float Model.Solution Model.Interp Model.State Model.Reheating
  Model.ApproxPower Model.Calibrate Spec.CalibSpec Proofs.BaseLemmas Proofs.FloatLemmas Proofs.DictLemmas Proofs.StateLemmas Proofs.CalibFrame Proofs.CalibPure Proofs.CalibPure2.
Import ListNotations.
Open Scope R_scope.
Open Scope string_scope.

(** values after the first part of the curved branch *)
Record kout := mkkout { k_dm : fl; k_nreh : fl; k_dn : fl; k_w : fl; k_rho : fl; k_N0 : R; k_a0 : R; k_a0M : R; k_OmK : R }.
Definition kstaged (s : attrs) (o : kout) : Prop :=
  dict_get "DeltaN_minus1" s = Some (VF (k_dm o)) /\ dict_get "_N_reh" s = Some (VF (k_nreh o)) /\
  dict_get "DeltaN_reh" s = Some (VF (k_dn o)) /\ dict_get "w_reh" s = Some (VF (k_w o)) /\
  dict_get "rho_reh_GeV" s = Some (VF (k_rho o)) /\
  scal s "N0" (k_N0 o) /\ scal s "a0" (k_a0 o) /\ scal s "a0_Mpc" (k_a0M o) /\ scal s "Omega_K0" (k_OmK o).
Definition krefines (p : attrs * res unit) (o : res kout) : Prop :=
  match o with Ok o => snd p = Ok tt /\ kstaged (fst p) o | Raise e => snd p = Raise e end.

Definition a0M_of (C : consts) (h K o : R) : R := c_light C / (h * 100 * 1000) * sqrt (- K / o).
Definition pure_Omega (C : consts) (a : calargs) (h : R) (b : bg) : res kout :=
  match ca_Omega_K0 a with
  | None => Raise ValueError
  | Some o =>
      if Req_EM_T o 0 then Raise ValueError
      else if Req_EM_T (np_sign o) (- b_K b) then
        let am := a0M_of C h (b_K b) o in
        let a0 := am * Mpc_m C / lp_m C in
        match ca_rho_reh_GeV a with
        | None => Ok (mkkout NaN NaN NaN NaN NaN (ln a0) a0 am o)
        | Some rho =>
            let nr := ln a0 - lgg C a + lgT C (mp4 C rho) in
            let dn := nr - b_end b in
            let w := fsub (fdiv (Fin (ln (3/2 * b_Vend b / mp4 C rho))) (Fin (3 * dn))) (Fin 1) in
            Ok (mkkout (fmul (Fin (dn / 4)) (fsub (Fin 1) (fmul (Fin 3) w))) (Fin nr) (Fin dn) w (Fin rho) (ln a0) a0 am o)
        end
      else Raise ValueError
  end.
Definition pure_curved_cases (C : consts) (a : calargs) (b : bg) : res (R * fl * fl * fl * fl) :=
  do i <- is_instant_reheating (ca_N_star a) (ca_rho_reh_GeV a) (ca_w_reh a) (ca_DeltaN_reh a) (ca_DeltaN_minus1 a);
  if (i : bool) then Ok (0, Fin (b_end b), Fin 0, Fin (1/3), Fin (GeV C (3/2 * b_Vend b)))
  else match ca_w_reh a, ca_DeltaN_reh a, ca_rho_reh_GeV a with
  | Some w, Some dn, None =>
      Ok (dn / 4 * (1 - 3 * w), Fin (b_end b + dn), Fin dn, Fin w, Fin (GeV C (3/2 * b_Vend b * exp (-3 * (1+w) * dn))))
  | Some w, None, Some rho =>
      let dn := - (1+w) / 3 * ln (2/3 * mp4 C rho / b_Vend b) in
      Ok (dn / 4 * (1 - 3 * w), Fin (b_end b + dn), Fin dn, Fin w, Fin rho)
  | _, _, _ => Raise ValueError
  end.
Definition pure_curved_reheating (C : consts) (a : calargs) (h : R) (b : bg) : res kout :=
  if is_given (ca_Omega_K0 a) then Raise ValueError
  else if bad_reheating a then Raise ValueError
  else
    do r <- pure_curved_cases C a b;
    let '(dm, nreh, dn, w, rho) := r in
    let N0 := b_end b + lgg C a + lgV C (b_Vend b) + dm in
    let am := exp N0 * lp_m C / Mpc_m C in
    Ok (mkkout (Fin dm) nreh dn w rho N0 (exp N0) am (- b_K b * c_light C ^ 2 / (am * h * 100 * 1000)^2)).

Section Curved.
Variables (C : consts) (a : calargs) (s : attrs) (b : bg) (h : R).
Hypothesis HC : consts_ok C.
Hypothesis HA : sane a.
Hypothesis HB : background s b.
Hypothesis Hh : 0 < h.

Lemma a0M_pos o : o <> 0 -> np_sign o = - b_K b -> 0 < - b_K b / o /\ 0 < a0M_of C h (b_K b) o.
Proof.
  intros N E. assert (P : 0 < - b_K b / o).
  { rewrite <- E. unfold np_sign in *. destruct (Rlt_dec 0 o); [apply Rdiv_lt_0_compat; lra|]. destruct (Rlt_dec o 0); [|lra].
    replace (-1/o) with (1/(-o)) by (field; lra). apply Rdiv_lt_0_compat; lra. }
  split; [exact P|]. unfold a0M_of. apply Rmult_lt_0_compat; [|apply sqrt_lt_R0; exact P].
  apply Rdiv_lt_0_compat; [apply HC|]. lra.
Qed.

Lemma Omega_refines : krefines (curved_Omega_K0 C a h s) (pure_Omega C a h b).
Proof.
  destruct HB as (BK & BN & BH & BL & BM & Bb & Be & Bt & BHe & BV & Blb & Ble & _ & _ & _ & _ & PHe & PV & _).
  assert (Hm : 0 < Mpc_m C) by apply HC. assert (Hl : 0 < lp_m C) by apply HC.
  unfold scal, arr in *. unfold curved_Omega_K0, pure_Omega. destruct (ca_Omega_K0 a) as [o|]; [|reflexivity].
  destruct (Req_EM_T o 0) as [E0|N0]; [reflexivity|]. erewrite run_bind_getF by rd. cbn [fneg feq].
  destruct (Req_EM_T (np_sign o) (- b_K b)) as [ES|NS]; [|reflexivity]. cbn [negb].
  destruct (a0M_pos o N0 ES) as [P1 P2].
  rewrite fdiv_fin by exact N0. rewrite fsqrt_fin by lra. cbn [fmul].
  rewrite run_bind_setF, run_bind_setF. erewrite run_bind_getF by rd. cbn [fmul]. rewrite fdiv_fin by lra.
  fold (a0M_of C h (b_K b) o). set (am := a0M_of C h (b_K b) o) in *.
  assert (P3 : 0 < am * Mpc_m C / lp_m C) by (apply Rdiv_lt_0_compat; [apply Rmult_lt_0_compat|]; assumption).
  rewrite run_bind_setF. erewrite run_bind_getF by rd. rewrite flog_fin by exact P3. rewrite run_bind_setF. cbv zeta.
  destruct (ca_rho_reh_GeV a) as [rho|] eqn:ER.
  - assert (HR : 0 < rho) by exact (proj2 HA _ ER). pose proof (mp4_pos C HC rho HR) as HP.
    repeat (rewrite run_bind_setF). erewrite run_bind_getF by rd. erewrite run_bind_getF by rd.
    rewrite rho_mp4_fin, (log_g0_fin C HC), (log_gth_fin a HA), (log_Treh_fin C HC) by exact HP.
    rewrite run_bind_setF. cbn [fadd fsub]. erewrite run_bind_getF by rd. erewrite run_bind_getF by rd. rewrite run_bind_setF. cbn [fsub].
    erewrite run_bind_getF by rd. erewrite run_bind_getF by rd. rewrite log_V_rho_fin by assumption.
    rewrite run_bind_setF. erewrite run_bind_getF by rd. cbn [fmul]. rewrite (fdiv_fin _ 4) by lra.
    set (am' := am) in *.
    replace (ln (am' * Mpc_m C / lp_m C) - ln (pypow (45 / PI ^ 2) (1 / 4) * pypow (g0 C) (-1 / 3)) - ln (ca_g_th a) / 12 + lgT C (mp4 C rho))
      with (ln (am' * Mpc_m C / lp_m C) - lgg C a + lgT C (mp4 C rho)) by (unfold lgg; ring).
    split; [reflexivity|]. unfold kstaged, scal, setF, setM. cbn [fst snd k_dm k_nreh k_dn k_w k_rho k_N0 k_a0 k_a0M k_OmK].
    repeat split; gs.
  - split; [reflexivity|]. unfold set_nans, setF, setM, retM, bindM. cbn [fold_right fst snd].
    unfold kstaged, scal, setF, setM. cbn [fst snd k_dm k_nreh k_dn k_w k_rho k_N0 k_a0 k_a0M k_OmK]. repeat split; gs.
Qed.

Definition creh_staged (s' : attrs) (N0 dm : R) (nr dn w rho : fl) : Prop :=
  scal s' "N0" N0 /\ scal s' "DeltaN_minus1" dm /\ dict_get "_N_reh" s' = Some (VF nr) /\ dict_get "DeltaN_reh" s' = Some (VF dn) /\
  dict_get "w_reh" s' = Some (VF w) /\ dict_get "rho_reh_GeV" s' = Some (VF rho).
Lemma curved_cases_refines s1 N0 : bad_reheating a = false ->
  (forall k, k <> "N0" -> dict_get k s1 = dict_get k s) -> scal s1 "N0" N0 ->
  match pure_curved_cases C a b with
  | Raise e => snd (curved_reheating_cases C a s1) = Raise e
  | Ok (dm, nr, dn, w, rho) => snd (curved_reheating_cases C a s1) = Ok tt /\ creh_staged (fst (curved_reheating_cases C a s1)) (N0 + dm) dm nr dn w rho
  end.
Proof.
  destruct HB as (BK & BN & BH & BL & BM & Bb & Be & Bt & BHe & BV & Blb & Ble & _ & _ & _ & _ & PHe & PV & _).
  intros HBad F EN. unfold scal, arr in *. apply bad_false in HBad. destruct HBad as [Bd Bw].
  assert (V1 : dict_get "V_end" s1 = Some (VF (Fin (b_Vend b)))) by (rewrite F by discriminate; exact BV).
  assert (E1 : dict_get "_N_end" s1 = Some (VF (Fin (b_end b)))) by (rewrite F by discriminate; exact Be).
  unfold curved_reheating_cases, pure_curved_cases.
  destruct (is_instant_reheating _ _ _ _ _) as [[|]|e]; cbn [bind].
  - rewrite run_bind_lift. repeat rewrite run_bind_setF. erewrite run_bind_getF by rd. rewrite run_bind_setF. erewrite run_bind_getF by rd. cbn [fmul].
    rewrite (rho_GeV_fin C HC) by lra. rewrite run_bind_setF. erewrite run_bind_getF by rd.
    split; [reflexivity|]. unfold creh_staged, scal, setF, setM; cbn [fst].
    replace (N0 + 0) with N0 by ring. repeat split; gs.
  - rewrite run_bind_lift.
    destruct (ca_w_reh a) as [w|], (ca_DeltaN_reh a) as [dn|], (ca_rho_reh_GeV a) as [rho|] eqn:ER; try reflexivity.
    + repeat (rewrite run_bind_setF). erewrite run_bind_getF by rd. erewrite run_bind_getF by rd. rewrite run_bind_setF. cbn [fadd].
      erewrite run_bind_getF by rd. rewrite run_bind_setF. erewrite run_bind_getF by rd. cbn [fmul].
      rewrite (rho_GeV_fin C HC) by (apply Rmult_lt_0_compat; [lra|apply exp_pos]). rewrite run_bind_setF. erewrite run_bind_getF by rd. cbn [fadd].
      split; [reflexivity|]. unfold creh_staged, scal, setF, setM; cbn [fst]. repeat split; gs.
    + assert (HR : 0 < rho) by exact (proj2 HA _ ER). pose proof (mp4_pos C HC rho HR) as HP. specialize (Bw w eq_refl).
      repeat (rewrite run_bind_setF). erewrite run_bind_getF by rd. erewrite run_bind_getF by rd. rewrite rho_mp4_fin. cbn [fmul].
      rewrite fdiv_fin by lra. rewrite flog_fin by (apply Rdiv_lt_0_compat; lra). cbn [fmul].
      rewrite run_bind_setF. erewrite run_bind_getF by rd. rewrite fdiv_fin by lra. rewrite run_bind_setF. cbn [fmul].
      erewrite run_bind_getF by rd. erewrite run_bind_getF by rd. cbn [fadd]. rewrite run_bind_setF. erewrite run_bind_getF by rd. cbn [fadd].
      split; [reflexivity|]. unfold creh_staged, scal, setF, setM; cbn [fst]. repeat split; gs.
  - reflexivity.
Qed.
Lemma curved_reheating_refines : krefines (curved_reheating C a h s) (pure_curved_reheating C a h b).
Proof.
  pose proof HB as (BK & BN & BH & BL & BM & Bb & Be & Bt & BHe & BV & Blb & Ble & _ & _ & _ & _ & PHe & PV & _).
  assert (Hm : 0 < Mpc_m C) by apply HC. assert (Hl : 0 < lp_m C) by apply HC.
  unfold scal, arr in *. unfold curved_reheating, pure_curved_reheating.
  destruct (is_given (ca_Omega_K0 a)); [reflexivity|]. destruct (bad_reheating a) eqn:EB; [reflexivity|].
  erewrite run_bind_getF by rd. erewrite run_bind_getF by rd.
  rewrite (log_g0_fin C HC), (log_gth_fin a HA), (log_Vend_fin C HC) by exact PV. rewrite run_bind_setF. cbn [fadd].
  replace (b_end b + ln (pypow (45 / PI ^ 2) (1 / 4) * pypow (g0 C) (-1 / 3)) + ln (ca_g_th a) / 12 + lgV C (b_Vend b))
    with (b_end b + lgg C a + lgV C (b_Vend b)) by (unfold lgg; ring).
  set (n0 := b_end b + lgg C a + lgV C (b_Vend b)).
  set (s1 := setattr "N0" (VF (Fin n0)) s).
  assert (F : forall k, k <> "N0" -> dict_get k s1 = dict_get k s) by (intros k N; unfold s1, setattr; apply get_set_neq, N).
  pose proof (curved_cases_refines s1 n0 EB F ltac:(unfold s1, scal; gs)) as R.
  assert (T : touches ["DeltaN_reh"; "w_reh"; "DeltaN_minus1"; "rho_reh_mp4"; "rho_reh_GeV"; "N0"; "_N_reh"] (curved_reheating_cases C a)).
  { unfold curved_reheating_cases. touch. }
  unfold bindM at 1. destruct (curved_reheating_cases C a s1) as [s2 r2] eqn:E2. cbn [fst snd] in R.
  assert (GK : dict_get "K" s2 = Some (VF (Fin (b_K b)))).
  { rewrite (T _ _ _ E2 "K" ltac:(ni)). rewrite F by discriminate. exact BK. }
  clearbody s1. clear F T E2.
  destruct (pure_curved_cases C a b) as [[[[[dm nr] dn] w] rho]|e] eqn:EP; cbn [bind].
  2:{ cbn [fst snd] in R. subst r2. reflexivity. }
  destruct R as [-> (R1 & R2 & R3 & R4 & R5 & R6)]. unfold scal in *. cbn [fst snd].
  erewrite run_bind_getF by rd. rewrite run_bind_setF. cbn [fexp]. erewrite run_bind_getF by rd. cbn [fmul]. rewrite fdiv_fin by lra.
  rewrite run_bind_setF. erewrite run_bind_getF by rd. erewrite run_bind_getF by rd. cbn [fmul fneg].
  set (am := exp (n0 + dm) * lp_m C / Mpc_m C).
  assert (PA : 0 < am) by (apply Rdiv_lt_0_compat; [apply Rmult_lt_0_compat; [apply exp_pos|]|]; assumption).
  assert (PP : 0 < am * h * 100 * 1000) by (assert (0 < am * h) by (apply Rmult_lt_0_compat; assumption); lra).
  assert (E2 : fpow (Fin (am * h * 100 * 1000)) 2 = Fin ((am * h * 100 * 1000)^2)).
  { unfold fpow. destruct (Rlt_dec _ 0); [lra|]. unfold pypow. destruct (Rlt_dec 0 _); [|contradiction]. f_equal.
    replace 2 with (INR 2) by (simpl; lra). rewrite Rpower_pow by exact PP. reflexivity. }
  rewrite E2. rewrite fdiv_fin by (apply Rgt_not_eq, pow_lt, PP).
  split; [reflexivity|]. unfold kstaged, scal, setF, setM. cbn [fst snd k_dm k_nreh k_dn k_w k_rho k_N0 k_a0 k_a0M k_OmK].
  repeat split; gs.
Qed.
End Curved.
