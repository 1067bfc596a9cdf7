(** Refinement: on a proper background the mutating calibration computes the values given by
    the pure functions below. *)
From Coq Require Import Reals List String ZArith Bool Lra Lia.
From Verif Require Import Base Model.Equations Model.Float Model.Solution Model.Interp Model.State Model.Reheating
  Model.ApproxPower Model.Calibrate Spec.CalibSpec Proofs.BaseLemmas Proofs.FloatLemmas Proofs.DictLemmas Proofs.StateLemmas Proofs.CalibFrame.
Import ListNotations.
Open Scope R_scope.
Open Scope string_scope.

Definition lgg (C : consts) (a : calargs) : R :=
  ln (pypow (45 / PI^2) (1/4) * pypow (g0 C) (-1/3)) + ln (ca_g_th a) / 12.
Definition lgV (C : consts) (V : R) : R := ln (V / T_CMB_Tp C ^ 4) / 4.
Definition lgT (C : consts) (r : R) : R := ln (3/2 * T_CMB_Tp C ^ 4 / r) / 4.
Definition mp4 (C : consts) (rho : R) : R := rho^4 / mp_GeV C * lp_iGeV C ^ 3.
Definition GeV (C : consts) (r : R) : R := Rpower (r * mp_GeV C / lp_iGeV C ^ 3) (1/4).
Definition lgK (C : consts) : R := ln (K_STAR_lp C).

Section Consts.
Variables (C : consts) (a : calargs).
Hypothesis HC : consts_ok C.
Hypothesis HA : sane a.
Let Hc1 : 0 < K_STAR C. Proof. apply HC. Qed.
Let Hc2 : 0 < Mpc_m C. Proof. apply HC. Qed.
Let Hc3 : 0 < lp_m C. Proof. apply HC. Qed.
Let Hc4 : 0 < mp_GeV C. Proof. apply HC. Qed.
Let Hc5 : 0 < lp_iGeV C. Proof. apply HC. Qed.
Let Hc6 : 0 < T_CMB_Tp C. Proof. apply HC. Qed.
Let Hc7 : 0 < g0 C. Proof. apply HC. Qed.

Lemma pypow_pos x y : 0 < x -> 0 < pypow x y.
Proof. intros H. unfold pypow. destruct (Rlt_dec 0 x); [apply exp_pos|contradiction]. Qed.
Lemma Klp_pos : 0 < K_STAR_lp C.
Proof. clear HA. unfold K_STAR_lp. apply Rmult_lt_0_compat; [apply Rdiv_lt_0_compat|]; assumption. Qed.
Lemma gpos : 0 < pypow (45 / PI^2) (1/4) * pypow (g0 C) (-1/3).
Proof. apply Rmult_lt_0_compat; apply pypow_pos; [|assumption]. apply Rdiv_lt_0_compat; [lra|]. apply pow_lt, PI_RGT_0. Qed.
Lemma log_g0_fin : log_g0 C = Fin (ln (pypow (45 / PI^2) (1/4) * pypow (g0 C) (-1/3))).
Proof. unfold log_g0. apply flog_fin, gpos. Qed.
Lemma log_gth_fin : log_gth a = Fin (ln (ca_g_th a) / 12).
Proof. unfold log_gth. rewrite flog_fin by exact (proj1 HA). apply fdiv_fin. lra. Qed.
Lemma T4 : 0 < T_CMB_Tp C ^ 4. Proof. apply pow_lt; assumption. Qed.
Lemma l3 : 0 < lp_iGeV C ^ 3. Proof. apply pow_lt; assumption. Qed.
Lemma log_Vend_fin V : 0 < V -> log_Vend C (Fin V) = Fin (lgV C V).
Proof.
  intros H. pose proof T4 as T. unfold log_Vend, lgV. rewrite fdiv_fin by lra.
  rewrite flog_fin by (apply Rdiv_lt_0_compat; assumption). apply fdiv_fin. lra.
Qed.
Lemma log_Treh_fin r : 0 < r -> log_Treh C (Fin r) = Fin (lgT C r).
Proof.
  intros H. pose proof T4 as T. unfold log_Treh, lgT. rewrite fdiv_fin by lra.
  rewrite flog_fin by (apply Rdiv_lt_0_compat; [lra|assumption]). apply fdiv_fin. lra.
Qed.
Lemma log_V_rho_fin V r : 0 < V -> 0 < r -> log_V_rho (Fin V) (Fin r) = Fin (ln (3/2 * V / r)).
Proof.
  intros HV H. unfold log_V_rho. cbn [fmul]. rewrite fdiv_fin by lra.
  apply flog_fin, Rdiv_lt_0_compat; lra.
Qed.
Lemma rho_GeV_fin r : 0 < r -> rho_GeV C (Fin r) = Fin (GeV C r).
Proof.
  intros H. pose proof l3 as L. unfold rho_GeV, GeV. cbn [fmul]. rewrite fdiv_fin by lra.
  assert (P : 0 < r * mp_GeV C / lp_iGeV C ^ 3) by (apply Rdiv_lt_0_compat; [apply Rmult_lt_0_compat|]; assumption).
  unfold fpow. destruct (Rlt_dec _ 0); [lra|]. unfold pypow. destruct (Rlt_dec 0 _); [reflexivity|contradiction].
Qed.
Lemma mp4_pos rho : 0 < rho -> 0 < mp4 C rho.
Proof. intros H. unfold mp4. apply Rmult_lt_0_compat; [apply Rdiv_lt_0_compat; [apply pow_lt|]; assumption|apply l3]. Qed.
Lemma rho_mp4_fin rho : rho_mp4 C rho = Fin (mp4 C rho).
Proof. reflexivity. Qed.
Lemma flogK : flog (Fin (K_STAR_lp C)) = Fin (lgK C).
Proof. apply flog_fin, Klp_pos. Qed.
(** conversions are inverse to each other *)
Lemma GeV_mp4 rho : 0 < rho -> GeV C (mp4 C rho) = rho.
Proof.
  intros H. unfold GeV, mp4. pose proof l3. replace (rho ^ 4 / mp_GeV C * lp_iGeV C ^ 3 * mp_GeV C / lp_iGeV C ^ 3) with (rho^4) by (field; lra).
  rewrite <- Rpower_pow by assumption. rewrite Rpower_mult. replace (INR 4 * (1/4)) with 1 by (simpl; lra). apply Rpower_1. assumption.
Qed.
Lemma GeV_pos r : 0 < GeV C r. Proof. apply exp_pos. Qed.
Lemma mp4_GeV r : 0 < r -> mp4 C (GeV C r) = r.
Proof.
  intros H. unfold GeV, mp4. pose proof l3 as L.
  assert (P : 0 < r * mp_GeV C / lp_iGeV C ^ 3) by (apply Rdiv_lt_0_compat; [apply Rmult_lt_0_compat|]; assumption).
  rewrite <- Rpower_pow by apply exp_pos. rewrite Rpower_mult. replace (1/4 * INR 4) with 1 by (simpl; lra). rewrite Rpower_1 by assumption.
  field. lra.
Qed.
End Consts.

(** values after a successful first stage *)
Record cout := mkcout { o_dc : R; o_ls : R; o_nc : R; o_ns : R; o_dm : fl; o_nreh : fl; o_dn : fl; o_w : fl; o_rho : fl;
                        o_N0 : R; o_a0 : R; o_OmK : R }.
Definition maskedN (b : bg) := select (b_mask b) (b_N b).
Definition maskedL (b : bg) := select (b_mask b) (logaH b).

Definition pure_N_star_reh (C : consts) (a : calargs) (b : bg) (dm dc : R) : res (fl * fl * fl * fl) :=
  match ca_rho_reh_GeV a, ca_w_reh a, ca_DeltaN_reh a with
  | None, None, None => Ok (NaN, NaN, NaN, NaN)
  | None, Some w, None =>
      if Req_EM_T w (1/3) then Raise ValueError
      else
        let dn := 4 * dm / (1 - 3 * w) in
        if Rlt_dec dn 0 then Raise ValueError
        else if Rlt_dec w (-1/3) then Raise ValueError
        else Ok (Fin (b_end b + dn), Fin dn, Fin w, Fin (GeV C (3/2 * b_Vend b * exp (-3 * (1+w) * dn))))
  | Some rho, None, None =>
      let nr := 0 - lgg C a + lgT C (mp4 C rho) in
      let dn := nr - dc - b_end b in
      Ok (Fin (nr - dc), Fin dn, fsub (fdiv (Fin (ln (3/2 * b_Vend b / mp4 C rho))) (Fin (3 * dn))) (Fin 1), Fin rho)
  | _, _, _ => Raise ValueError
  end.
Definition pure_N_star (C : consts) (a : calargs) (b : bg) : res cout :=
  match ca_N_star a with
  | None => Raise ValueError
  | Some ns =>
      if Rle_dec ns 0 then Raise ValueError
      else if Rlt_dec (b_end b - b_beg b) ns then Raise InsufficientInflationError
      else
        let nc := b_end b - ns in
        do ls <- interp1d (combine (maskedN b) (maskedL b)) nc;
        let dc := 0 - ls + lgK C in
        let dm := 0 - ns - ln (K_STAR_lp C / exp (ls - nc)) - lgg C a - lgV C (b_Vend b) in
        do r <- pure_N_star_reh C a b dm dc;
        Ok (mkcout dc ls nc ns (Fin dm) (fst (fst (fst r))) (snd (fst (fst r))) (snd (fst r)) (snd r) 0 1 0)
  end.

(** facts about the state after the first stage *)
Definition staged (s : attrs) (o : cout) : Prop :=
  scal s "delta_N_calib" (o_dc o) /\ scal s "_logaH_star" (o_ls o) /\ scal s "_N_cross" (o_nc o) /\ scal s "N_star" (o_ns o) /\
  dict_get "DeltaN_minus1" s = Some (VF (o_dm o)) /\ dict_get "_N_reh" s = Some (VF (o_nreh o)) /\
  dict_get "DeltaN_reh" s = Some (VF (o_dn o)) /\ dict_get "w_reh" s = Some (VF (o_w o)) /\
  dict_get "rho_reh_GeV" s = Some (VF (o_rho o)) /\
  scal s "N0" (o_N0 o) /\ scal s "a0" (o_a0 o) /\ scal s "Omega_K0" (o_OmK o).
Definition refines (p : attrs * res unit) (o : res cout) : Prop :=
  match o with Ok o => snd p = Ok tt /\ staged (fst p) o | Raise e => snd p = Raise e end.

Lemma interp_fl_fin xs ys x : interp_fl (map Fin xs) (map Fin ys) (Fin x) = do v <- interp1d (combine xs ys) x; Ok (Fin v).
Proof. unfold interp_fl. rewrite !reals_map. cbn [bind]. destruct xs as [|x0 xs]; [reflexivity|]. reflexivity. Qed.

Ltac gs := unfold setattr; repeat first [rewrite get_set_eq | rewrite get_set_neq by discriminate]; try reflexivity; try eassumption.

Section Flat.
Variables (C : consts) (a : calargs) (s : attrs) (b : bg).
Hypothesis HC : consts_ok C.
Hypothesis HA : sane a.
Hypothesis HB : background s b.
Hypothesis H0 : scal s "N0" 0.
Hypothesis Ha0 : scal s "a0" 1.
Hypothesis HOm : scal s "Omega_K0" 0.

Lemma flat_N_star_refines : refines (flat_N_star C a s) (pure_N_star C a b).
Proof.
  destruct HB as (BK & BN & BH & BL & BM & Bb & Be & Bt & BHe & BV & Blb & Ble & _ & _ & _ & _ & PHe & PV & _).
  unfold scal, arr in *. unfold flat_N_star, pure_N_star. destruct (ca_N_star a) as [ns|]; [|reflexivity].
  destruct (Rle_dec ns 0) as [Hle|Hgt]; [reflexivity|].
  erewrite run_bind_getF by eassumption. cbn [flt]. destruct (Rlt_dec (b_end b - b_beg b) ns) as [Hlt|Hge]; [reflexivity|].
  unfold refines. cbv zeta.
  rewrite run_bind_setF. erewrite run_bind_getF by rd. erewrite run_bind_getF by rd. cbn [fsub].
  rewrite run_bind_setF. erewrite run_bind_getA by rd. erewrite run_bind_getB by rd. erewrite run_bind_getA by rd. erewrite run_bind_getF by rd.
  rewrite !select_map, interp_fl_fin. fold (maskedN b). fold (maskedL b).
  destruct (interp1d (combine (maskedN b) (maskedL b)) (b_end b - ns)) as [ls|e] eqn:EI; [|reflexivity]. cbn [bind].
  rewrite run_bind_lift, run_bind_setF. erewrite run_bind_getF by rd. rewrite run_bind_setF. cbn [fsub fexp].
  erewrite run_bind_getF by rd. rewrite (flogK C HC). rewrite run_bind_setF. cbn [fsub fadd].
  erewrite run_bind_getF by rd. erewrite run_bind_getF by rd.
  rewrite (log_g0_fin C HC), (log_gth_fin a HA), (log_Vend_fin C HC) by exact PV.
  rewrite fdiv_fin by (apply Rgt_not_eq, exp_pos).
  rewrite flog_fin by (apply Rdiv_lt_0_compat; [apply Klp_pos, HC|apply exp_pos]).
  rewrite run_bind_setF. cbn [fsub].
  set (nc := b_end b - ns). set (dc := 0 - ls + lgK C).
  replace (0 - ns - ln (K_STAR_lp C / exp (ls - nc)) - ln (pypow (45 / PI ^ 2) (1 / 4) * pypow (g0 C) (-1 / 3)) - ln (ca_g_th a) / 12 - lgV C (b_Vend b))
    with (0 - ns - ln (K_STAR_lp C / exp (ls - nc)) - lgg C a - lgV C (b_Vend b)) by (unfold lgg; ring).
  set (dm := 0 - ns - ln (K_STAR_lp C / exp (ls - nc)) - lgg C a - lgV C (b_Vend b)).
  unfold flat_N_star_reheating, pure_N_star_reh.
  destruct (ca_rho_reh_GeV a) as [rho|] eqn:ER, (ca_w_reh a) as [w|], (ca_DeltaN_reh a) as [dN|]; try reflexivity.
  - (* rho *)
    assert (HR : 0 < rho) by exact (proj2 HA _ ER). pose proof (mp4_pos C HC rho HR) as HP.
    repeat (rewrite run_bind_setF). erewrite run_bind_getF by rd. erewrite run_bind_getF by rd.
    rewrite rho_mp4_fin, (log_g0_fin C HC), (log_gth_fin a HA), (log_Treh_fin C HC) by exact HP.
    rewrite run_bind_setF. cbn [fadd fsub]. erewrite run_bind_getF by rd. erewrite run_bind_getF by rd. rewrite run_bind_setF. cbn [fsub].
    erewrite run_bind_getF by rd. erewrite run_bind_getF by rd. rewrite run_bind_setF. cbn [fsub].
    erewrite run_bind_getF by rd. erewrite run_bind_getF by rd.
    rewrite log_V_rho_fin by assumption. cbn [bind fmul].
    replace (0 - ln (pypow (45 / PI ^ 2) (1 / 4) * pypow (g0 C) (-1 / 3)) - ln (ca_g_th a) / 12 + lgT C (mp4 C rho))
      with (0 - lgg C a + lgT C (mp4 C rho)) by (unfold lgg; ring).
    split; [reflexivity|]. unfold staged, scal, setF, setM. cbn [fst snd o_dc o_ls o_nc o_ns o_dm o_nreh o_dn o_w o_rho o_N0 o_a0 o_OmK].
    repeat split; gs.
  - (* w *)
    destruct (Req_EM_T w (1/3)) as [E3|N3]; [reflexivity|].
    rewrite run_bind_setF. erewrite run_bind_getF by rd. cbn [fmul]. rewrite fdiv_fin by lra.
    rewrite run_bind_setF. erewrite run_bind_getF by rd. erewrite run_bind_getF by rd. rewrite run_bind_setF. cbn [fadd].
    erewrite run_bind_getF by rd. erewrite run_bind_getF by rd. rewrite run_bind_setF. cbn [fadd flt]. cbv zeta.
    destruct (Rlt_dec (4 * dm / (1 - 3 * w)) 0); [reflexivity|]. destruct (Rlt_dec w (-1/3)); [reflexivity|]. cbn [orb].
    erewrite run_bind_getF by rd. rewrite run_bind_setF. erewrite run_bind_getF by rd. cbn [fmul fexp].
    rewrite (rho_GeV_fin C HC) by (apply Rmult_lt_0_compat; [lra|apply exp_pos]).
    cbn [bind]. split; [reflexivity|]. unfold staged, scal, setF, setM. cbn [fst snd o_dc o_ls o_nc o_ns o_dm o_nreh o_dn o_w o_rho o_N0 o_a0 o_OmK].
    repeat split; gs.
  - (* none *)
    cbn [bind]. split; [reflexivity|]. unfold staged, scal, setF, setM. cbn [fst snd o_dc o_ls o_nc o_ns o_dm o_nreh o_dn o_w o_rho o_N0 o_a0 o_OmK].
    unfold set_nans, setF, setM, retM, bindM. cbn [fold_right fst snd]. repeat split; gs.
Qed.
End Flat.
