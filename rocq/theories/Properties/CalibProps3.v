(** Calibration in curved universes: properties C40, C41; examples for C39, C42. *)
From Coq Require Import Reals List String ZArith Bool Lra Lia.
From Verif Require Import Base Model.Equations Model.Background Model.Float Model.Solution Model.Interp Model.State Model.Reheating
  Model.ApproxPower Model.Calibrate Spec.CalibSpec Proofs.BaseLemmas Proofs.FloatLemmas Proofs.DictLemmas Proofs.StateLemmas Proofs.CalibFrame
  Proofs.CalibPure Proofs.CalibPure2 Proofs.CalibPure3 Proofs.CalibRun Proofs.PowerRun Proofs.CalibResult Proofs.CalibTotal Proofs.InterpInverse
  Properties.CalibProps Properties.CalibProps2.
Import ListNotations.
Open Scope R_scope.
Open Scope string_scope.

(** ** an instance of C39 *)
Definition exL : R := ln (pypow (45 / PI^2) (1/4) * pypow 1 (-1/3)).
Definition exg (x : R) : R := exp (12 * (x - exL)).
Definition ex_args (K : R) (x : R) : calargs :=
  mkargs None None (if Req_EM_T K 0 then None else Some 1) None None None None None (exg x) None "CGS" (Some 3%Z) default_opts.
Lemma ex_lgg K x me ns w dn dm rho : lgg exC (with_reh (ex_args K x) me ns w dn dm rho) = x.
Proof. unfold lgg, with_reh, ex_args, exg. cbn [ca_g_th g0 exC]. fold exL. rewrite ln_exp. field. Qed.
Lemma ex_lgV : lgV exC 1 = 0.
Proof. unfold lgV, exC. cbn [T_CMB_Tp]. replace (1 / 1^4) with 1 by field. rewrite ln_1. field. Qed.
Lemma ex_lgK : lgK exC = 0.
Proof. unfold lgK, K_STAR_lp, exC. cbn. replace (1 / 1 * 1) with 1 by field. apply ln_1. Qed.
Lemma ex39_pure : exists o, pure_first exC (with_reh (ex_args 0 (-3)) "reheating" None (Some 0) (Some 2) None None) 0 (exb 0) = Ok o.
Proof.
  unfold pure_first. destruct (Req_EM_T 0 0); [|lra]. cbn [with_reh ex_args ca_Omega_K0 ca_method bind String.eqb Ascii.eqb Bool.eqb].
  unfold pure_flat_reheating. rewrite (not_bad (ex_args 0 (-3)) 0 2) by lra. rewrite (reh_A exC (ex_args 0 (-3)) (exb 0) 0 2) by lra.
  cbn [bind fst snd]. cbv zeta. unfold base_end. rewrite ex_lgg, ex_lgK. cbn [exb b_end b_beg b_Hbeg b_Hend b_Vend]. rewrite ex_lgV, ln_1. fold (exb 0).
  destruct (Rlt_dec _ _); [exfalso; lra|]. destruct (Rlt_dec _ _); [exfalso; lra|].
  rewrite exb_maskedL. change (combine [0; 1; 2; 3] (maskedN (exb 0))) with [(0, 0); (1, 1); (2, 2); (3, 3)]. rewrite ex_interp by lra. cbn [bind]. eexists. reflexivity.
Qed.
Lemma exb_increasing K : increasing (exb K).
Proof. unfold increasing. rewrite exb_logaH. cbn. lra. Qed.
Theorem C39_nonvacuous U : exists s1 ws,
  calibrate_scale_factor exC exS (mkaeqs AT 0 U) (with_reh (ex_args 0 (-3)) "reheating" None (Some 0) (Some 2) None None) (exs 0) = (s1, Ok ws) /\
  increasing (exb 0) /\ 0 < ca_g_th (ex_args 0 (-3)) /\ documented (ca_approx (ex_args 0 (-3))) (ca_order (ex_args 0 (-3))).
Proof.
  destruct ex39_pure as (o & EP).
  assert (SN : sane (with_reh (ex_args 0 (-3)) "reheating" None (Some 0) (Some 2) None None)) by (split; cbn; [apply exp_pos|discriminate]).
  destruct (calibrate_succeeds exC exS (mkaeqs AT 0 U) _ (exs 0) (exb 0) o _ _ 3%nat exC_ok SN (exs_bg 0) eq_refl EP (exs_fields 0) ltac:(cbn; lia) exS_ok eq_refl eq_refl ltac:(lia)) as (s' & w & E & P & F).
  exists s', w. split; [exact E|]. split; [apply exb_increasing|]. split; [apply exp_pos|]. right. right. left. split; [reflexivity|]. exists 3%Z. split; [reflexivity|lia].
Qed.

(** ** C40 *)
(** calibration by the curvature today, with the energy density at the end of reheating *)
Definition with_OmegaK (a : calargs) (Om : R) (rho : option R) : calargs :=
  mkargs (Some "Omega_K0") (Some Om) (ca_h a) None (ca_background a) None None rho (ca_g_th a) None (ca_approx a) (ca_order a) (ca_opts a).

Section Curved.
Variables (C : consts) (a : calargs) (b : bg) (w dn h : R).
Hypothesis HC : consts_ok C.
Hypothesis HV : 0 < b_Vend b.
Hypothesis HK : b_K b = 1 \/ b_K b = -1.
Hypothesis Hh : 0 < h.
Hypothesis HO : ca_Omega_K0 a = None.
Hypothesis Eh : ca_h a = Some h.
Hypothesis Hw : -1/3 <= w.
Hypothesis Hw3 : w <> 1/3.
Hypothesis Hdn : 0 < dn.
Let A := with_reh a "reheating" None (Some w) (Some dn) None None.
Let rho := GeV C (3/2 * b_Vend b * exp (-3 * (1+w) * dn)).
Let dm := dn / 4 * (1 - 3 * w).
Let N0 := b_end b + lgg C A + lgV C (b_Vend b) + dm.
Let am := exp N0 * lp_m C / Mpc_m C.
Let Om := - b_K b * c_light C ^ 2 / (am * h * 100 * 1000)^2.
Definition kA : kout := mkkout (Fin dm) (Fin (b_end b + dn)) (Fin dn) (Fin w) (Fin rho) N0 (exp N0) am Om.
Lemma cases_A : pure_curved_cases C A b = Ok (dm, Fin (b_end b + dn), Fin dn, Fin w, Fin rho).
Proof.
  destruct (not_instant w dn Hw3 Hdn) as (I1 & I2 & _). unfold pure_curved_cases, A, with_reh. cbn [ca_N_star ca_rho_reh_GeV ca_w_reh ca_DeltaN_reh ca_DeltaN_minus1].
  unfold is_instant_reheating. rewrite I1, I2. cbn [is_none negb andb orb given_eq bind]. reflexivity.
Qed.
Lemma reh_kA : pure_curved_reheating C A h b = Ok kA.
Proof.
  unfold pure_curved_reheating. unfold A at 1. cbn [with_reh ca_Omega_K0]. rewrite HO. cbn [is_given is_none negb].
  unfold A at 1. rewrite (not_bad a w dn Hw Hdn). rewrite cases_A. cbn [bind]. reflexivity.
Qed.
Lemma am_pos : 0 < am.
Proof. unfold am. apply Rdiv_lt_0_compat; [apply Rmult_lt_0_compat; [apply exp_pos|apply HC]|apply HC]. Qed.
Lemma Om_sign : Om <> 0 /\ np_sign Om = - b_K b /\ - b_K b / Om = (am * h * 100 * 1000 / c_light C)^2.
Proof.
  pose proof am_pos as P. assert (PC : 0 < c_light C) by apply HC. assert (PA : 0 < am * h * 100 * 1000) by (apply Rmult_lt_0_compat; [apply Rmult_lt_0_compat; [apply Rmult_lt_0_compat; [exact P|exact Hh]|lra]|lra]).
  assert (PQ : 0 < c_light C ^ 2 / (am * h * 100 * 1000)^2) by (apply Rdiv_lt_0_compat; apply pow_lt; assumption).
  assert (EO : Om = - b_K b * (c_light C ^ 2 / (am * h * 100 * 1000)^2)) by (unfold Om; field; repeat split; lra).
  assert (X : Om <> 0 /\ np_sign Om = - b_K b).
  { rewrite EO. unfold np_sign. destruct HK as [-> | ->].
    - split; [lra|]. destruct (Rlt_dec 0 _); [lra|]. destruct (Rlt_dec _ 0); lra.
    - split; [lra|]. destruct (Rlt_dec 0 _); lra. }
  destruct X as [X1 X2]. split; [exact X1|]. split; [exact X2|]. rewrite EO. assert (NK : b_K b <> 0) by (destruct HK as [-> | ->]; lra). field. repeat split; try lra; exact NK.
Qed.
Lemma a0M_Om : a0M_of C h (b_K b) Om = am.
Proof.
  pose proof am_pos as P. assert (PC : 0 < c_light C) by apply HC. destruct Om_sign as (_ & _ & E). unfold a0M_of. rewrite E.
  rewrite sqrt_pow2; [field; lra|]. left. apply Rdiv_lt_0_compat; [apply Rmult_lt_0_compat; [apply Rmult_lt_0_compat; [apply Rmult_lt_0_compat; [exact P|exact Hh]|lra]|lra]|exact PC].
Qed.
Lemma lgT_lgV' : lgT C (mp4 C rho) + lgV C (b_Vend b) = 3 * (1+w) * dn / 4.
Proof. apply (lgT_lgV C b w dn HC HV). Qed.
Lemma Omega_kA : pure_Omega C (with_OmegaK a Om (Some rho)) h b = Ok kA.
Proof.
  destruct Om_sign as (S1 & S2 & _). pose proof HC as (C1 & C2 & C3 & _). unfold pure_Omega, with_OmegaK. cbn [ca_Omega_K0 ca_rho_reh_GeV].
  destruct (Req_EM_T Om 0); [contradiction|]. destruct (Req_EM_T (np_sign Om) (- b_K b)); [|contradiction]. cbv zeta. rewrite a0M_Om.
  assert (EA : am * Mpc_m C / lp_m C = exp N0) by (unfold am; field; lra). rewrite EA, ln_exp.
  change (lgg C _) with (lgg C A).
  assert (EN : N0 - lgg C A + lgT C (mp4 C rho) - b_end b = dn) by (unfold N0, dm; pose proof lgT_lgV'; lra).
  rewrite EN. change (ln (3/2 * b_Vend b / mp4 C rho)) with (ln (3/2 * b_Vend b / mp4 C (GeV C (3/2 * b_Vend b * exp (-3 * (1+w) * dn))))). rewrite (log_rho C b w dn HC HV). rewrite (w_back w dn Hdn). cbn [fmul fsub].
  replace (N0 - lgg C A + lgT C (mp4 C rho)) with (b_end b + dn) by lra. unfold kA. fold dm. do 3 f_equal.
Qed.
(** what (w_reh, rho_reh) gives *)
Definition B1 := with_reh a "reheating" None (Some w) None None (Some rho).
Lemma cases_B1 : pure_curved_cases C B1 b =
  Ok ((1+w)^2 * dn / 4 * (1 - 3 * w), Fin (b_end b + (1+w)^2 * dn), Fin ((1+w)^2 * dn), Fin w, Fin rho).
Proof.
  destruct (not_instant w dn Hw3 Hdn) as (I1 & _). unfold pure_curved_cases, B1, with_reh. cbn [ca_N_star ca_rho_reh_GeV ca_w_reh ca_DeltaN_reh ca_DeltaN_minus1].
  unfold is_instant_reheating. rewrite I1. cbn [is_none negb andb orb given_eq bind]. cbv zeta. unfold rho. rewrite (mrho C b w dn HC HV).
  assert (E : ln (2/3 * (3/2 * b_Vend b * exp (-3 * (1 + w) * dn)) / b_Vend b) = -3 * (1 + w) * dn).
  { replace (2/3 * (3/2 * b_Vend b * exp (-3 * (1 + w) * dn)) / b_Vend b) with (exp (-3 * (1 + w) * dn)) by (field; lra). apply ln_exp. }
  rewrite E. replace (- (1 + w) / 3 * (-3 * (1 + w) * dn)) with ((1 + w)^2 * dn) by field. reflexivity.
Qed.
End Curved.

Lemma curved_first C a K b me h : K <> 0 -> ca_N_star a = None -> ca_h a = Some h -> 0 < h -> ca_method a = Some me ->
  pure_first C a K b = do ko <- (if String.eqb me "Omega_K0" then pure_Omega C a h b else if String.eqb me "reheating" then pure_curved_reheating C a h b else Raise NotImplementedError); pure_finish C b ko.
Proof.
  intros NK E1 E2 Hh E3. unfold pure_first. destruct (Req_EM_T K 0); [contradiction|]. rewrite E1, E2, E3. cbn [is_given is_none negb]. destruct (Rle_dec h 0); [lra|]. reflexivity.
Qed.

Theorem C40_curved_round_trip : forall C S q a s b s1 ws w dn h ph dp,
  consts_ok C -> 0 < ca_g_th a -> background s b -> ca_background a = None -> a_K q = b_K b -> (b_K b = 1 \/ b_K b = -1) ->
  ca_h a = Some h -> fields s ph dp -> (3 <= o_k (ca_opts a))%nat -> documented (ca_approx a) (ca_order a) ->
  -1/3 <= w -> w <> 1/3 -> 0 < dn ->
  calibrate_scale_factor C S q (with_reh a "reheating" None (Some w) (Some dn) None None) s = (s1, Ok ws) ->
  exists Om rho, scal s1 "Omega_K0" Om /\ scal s1 "rho_reh_GeV" rho /\ scal s1 "w_reh" w /\ scal s1 "DeltaN_reh" dn /\
    exists s2, calibrate_scale_factor C S q (with_OmegaK a Om (Some rho)) s = (s2, Ok ws) /\ agree calibration s1 s2 /\ agree reheating s1 s2.
Proof.
  intros C S q a s b s1 ws w dn h ph dp HC HG HB HN EK HK Eh HF H3 HD Hw Hw3 Hdn E.
  set (A := with_reh a "reheating" None (Some w) (Some dn) None None) in *.
  assert (SA : sane A) by (split; cbn; [exact HG|discriminate]).
  destruct (calibrate_result C S q A s b s1 ws HC SA HB HN E) as (o & EP & P & _). rewrite EK in EP.
  assert (NK : b_K b <> 0) by (destruct HK as [-> | ->]; lra). assert (HV : 0 < b_Vend b) by apply HB.
  pose proof EP as EP'. apply pure_curved_inv in EP'; [|exact NK]. destruct EP' as (h' & ko & _ & Eh' & Hh & EF & EKO).
  assert (h' = h) by (cbn in Eh'; congruence). subst h'. destruct EKO as [[M _]|[_ EKO]]; [cbn in M; discriminate|].
  assert (HO : ca_Omega_K0 a = None). { unfold pure_curved_reheating in EKO. cbn [A with_reh ca_Omega_K0] in EKO. destruct (ca_Omega_K0 a); [discriminate|reflexivity]. }
  pose proof (reh_kA C a b w dn h HO Hw Hw3 Hdn) as RK. fold A in RK. rewrite RK in EKO. injection EKO as <-.
  pose proof EF as EF'. apply pure_finish_inv in EF'. destruct EF' as (_ & _ & _ & EO).
  destruct P as (((P1 & P2 & P3 & P4 & P5 & P6 & P7 & P8 & P9 & P10 & P11 & P12) & _) & _).
  rewrite EO in P7, P8, P9, P12. cbn in P7, P8, P9, P12.
  eexists. eexists. split; [exact P12|]. split; [exact P9|]. split; [exact P8|]. split; [exact P7|].
  match goal with |- exists s2, calibrate_scale_factor C S q ?x s = _ /\ _ => set (A' := x) end.
  assert (SA' : sane A') by (split; cbn; [exact HG|intros r [= <-]; apply GeV_pos]).
  assert (EP2 : pure_first C A' (b_K b) b = Ok o).
  { rewrite (curved_first C A' (b_K b) b "Omega_K0" h NK eq_refl Eh Hh eq_refl). cbn [String.eqb Ascii.eqb Bool.eqb].
    pose proof (Omega_kA C a b w dn h HC HV HK Hh Hdn) as OK. change (pure_Omega C A' h b = Ok (kA C a b w dn h)) in OK. rewrite OK. cbn [bind]. exact EF. }
  rewrite <- EK in EP, EP2.
  destruct (same_outcome C S q A A' s b o o ph dp s1 ws HC SA SA' HB HN HN HF H3 HD eq_refl eq_refl eq_refl EP EP2 eq_refl E) as (s2 & w2 & E2 & AG & RE).
  destruct (RE eq_refl) as [-> AR]. exists s2. auto.
Qed.

(** ** C41 *)
(** The statement: calibrating by (w_reh, rho_reh) for the rho_reh that (w_reh, DeltaN_reh) gives, recovers DeltaN_reh. *)
Definition C41_statement (okw : R -> Prop) : Prop := forall C S q a s b s1 ws w dn h s2 ws2 rho,
  consts_ok C -> 0 < ca_g_th a -> background s b -> ca_background a = None -> a_K q = b_K b -> (b_K b = 1 \/ b_K b = -1) ->
  ca_h a = Some h -> -1/3 <= w -> w <> 1/3 -> 0 < dn -> okw w ->
  calibrate_scale_factor C S q (with_reh a "reheating" None (Some w) (Some dn) None None) s = (s1, Ok ws) ->
  scal s1 "rho_reh_GeV" rho ->
  calibrate_scale_factor C S q (with_reh a "reheating" None (Some w) None None (Some rho)) s = (s2, Ok ws2) ->
  scal s2 "DeltaN_reh" dn.
(** what the code computes: (1+w_reh)^2 DeltaN_reh *)
Theorem C41_value : forall C S q a s b s1 ws w dn h s2 ws2 rho,
  consts_ok C -> 0 < ca_g_th a -> background s b -> ca_background a = None -> a_K q = b_K b -> (b_K b = 1 \/ b_K b = -1) ->
  ca_h a = Some h -> -1/3 <= w -> w <> 1/3 -> 0 < dn ->
  calibrate_scale_factor C S q (with_reh a "reheating" None (Some w) (Some dn) None None) s = (s1, Ok ws) ->
  scal s1 "rho_reh_GeV" rho ->
  calibrate_scale_factor C S q (with_reh a "reheating" None (Some w) None None (Some rho)) s = (s2, Ok ws2) ->
  scal s2 "DeltaN_reh" ((1+w)^2 * dn).
Proof.
  intros C S q a s b s1 ws w dn h s2 ws2 rho HC HG HB HN EK HK Eh Hw Hw3 Hdn E Er E2.
  assert (NK : b_K b <> 0) by (destruct HK as [-> | ->]; lra). assert (HV : 0 < b_Vend b) by apply HB.
  set (A := with_reh a "reheating" None (Some w) (Some dn) None None) in *.
  assert (SA : sane A) by (split; cbn; [exact HG|discriminate]).
  destruct (calibrate_result C S q A s b s1 ws HC SA HB HN E) as (o & EP & P & _). rewrite EK in EP.
  apply pure_curved_inv in EP; [|exact NK]. destruct EP as (h' & ko & _ & Eh' & Hh & EF & EKO).
  assert (h' = h) by (cbn in Eh'; congruence). subst h'. destruct EKO as [[M _]|[_ EKO]]; [cbn in M; discriminate|].
  assert (HO : ca_Omega_K0 a = None). { unfold pure_curved_reheating in EKO. cbn [A with_reh ca_Omega_K0] in EKO. destruct (ca_Omega_K0 a); [discriminate|reflexivity]. }
  pose proof (reh_kA C a b w dn h HO Hw Hw3 Hdn) as RK. fold A in RK. rewrite RK in EKO. injection EKO as <-.
  apply pure_finish_inv in EF. destruct EF as (_ & _ & _ & EO).
  destruct P as (((P1 & P2 & P3 & P4 & P5 & P6 & P7 & P8 & P9 & _) & _) & _). rewrite EO in P9. cbn in P9. unfold scal in Er. rewrite P9 in Er. injection Er as <-.
  set (B := with_reh a "reheating" None (Some w) None None _) in *.
  assert (SB : sane B) by (split; cbn; [exact HG|intros r [= <-]; apply GeV_pos]).
  destruct (calibrate_result C S q B s b s2 ws2 HC SB HB HN E2) as (o2 & EP2 & P' & _). rewrite EK in EP2.
  apply pure_curved_inv in EP2; [|exact NK]. destruct EP2 as (h' & ko & _ & _ & _ & EF2 & EKO).
  destruct EKO as [[M _]|[_ EKO]]; [cbn in M; discriminate|].
  unfold pure_curved_reheating in EKO. destruct (is_given (ca_Omega_K0 B)); [discriminate|]. destruct (bad_reheating B); [discriminate|].
  pose proof (cases_B1 C a b w dn HC HV Hw3 Hdn) as CB. change (B1 C a b w dn) with B in CB. rewrite CB in EKO. cbn [bind] in EKO. injection EKO as <-.
  apply pure_finish_inv in EF2. destruct EF2 as (_ & _ & _ & EO2). destruct P' as (((_ & _ & _ & _ & _ & _ & P7' & _) & _) & _). rewrite EO2 in P7'. exact P7'.
Qed.
Theorem C41_partial : C41_statement (fun w => w = 0).
Proof.
  unfold C41_statement. intros. subst w. replace dn with ((1+0)^2 * dn) by ring. eapply C41_value with (b := b) (h := h); eassumption.
Qed.

(** an example with K = -1 *)
Lemma ex_finish C b ko : b = exb (-1) -> C = exC -> 0 < k_a0M ko -> 0 - ln (k_a0M ko) <= 0 <= 3 - ln (k_a0M ko) -> exists o, pure_finish C b ko = Ok o.
Proof.
  intros -> -> HP H. unfold pure_finish. rewrite exb_maskedL', exb_maskedN'. cbn [map K_STAR exC]. rewrite ln_1. cbv zeta.
  set (L := ln (k_a0M ko)) in *. unfold lmin, lmax. cbn [fold_left].
  rewrite (Rmin_left (0 - L) (1 - L)), (Rmin_left (0 - L) (2 - L)), (Rmin_left (0 - L) (3 - L)) by lra.
  rewrite (Rmax_right (0 - L) (1 - L)), (Rmax_right (1 - L) (2 - L)), (Rmax_right (2 - L) (3 - L)) by lra.
  destruct (Rlt_dec 0 (0 - L)); [lra|]. destruct (Rlt_dec (3 - L) 0); [lra|]. cbn [combine].
  assert (I : exists y, interp1d [(0 - L, 0); (1 - L, 1); (2 - L, 2); (3 - L, 3)] 0 = Ok y).
  { unfold interp1d. rewrite sort_inc by (cbn; lra). cbn [last fst]. destruct (Rlt_dec 0 (0 - L)); [lra|]. destruct (Rlt_dec (3 - L) 0); [lra|]. eexists. reflexivity. }
  destruct I as [y ->]. cbn [bind]. eexists. reflexivity.
Qed.
Lemma ex_curved_success U w dn x : -1/3 <= w -> w <> 1/3 -> 0 < dn -> 0 <= 4 + x + dn / 4 * (1 - 3 * w) <= 3 ->
  exists s1 ws, calibrate_scale_factor exC exS (mkaeqs AT (-1) U) (with_reh (ex_args (-1) x) "reheating" None (Some w) (Some dn) None None) (exs (-1)) = (s1, Ok ws) /\
    scal s1 "rho_reh_GeV" (GeV exC (3/2 * 1 * exp (-3 * (1+w) * dn))).
Proof.
  intros Hw Hw3 Hdn HX. set (A := with_reh _ _ _ _ _ _ _).
  assert (SN : sane A) by (split; cbn; [apply exp_pos|discriminate]).
  assert (EH : ca_h (ex_args (-1) x) = Some 1) by (cbn; destruct (Req_EM_T (-1) 0); [lra|reflexivity]).
  assert (EP : exists o, pure_first exC A (-1) (exb (-1)) = Ok o /\ o_rho o = Fin (GeV exC (3/2 * 1 * exp (-3 * (1+w) * dn)))).
  { rewrite (curved_first exC A (-1) (exb (-1)) "reheating" 1); [|lra|reflexivity|exact EH|lra|reflexivity]. cbn [String.eqb Ascii.eqb Bool.eqb].
    pose proof (reh_kA exC (ex_args (-1) x) (exb (-1)) w dn 1 eq_refl Hw Hw3 Hdn) as RK. fold A in RK. rewrite RK. cbn [bind].
    assert (EL : ln (k_a0M (kA exC (ex_args (-1) x) (exb (-1)) w dn 1)) = 4 + x + dn / 4 * (1 - 3 * w)).
    { cbn [kA k_a0M lp_m Mpc_m exC]. fold A. unfold A. rewrite ex_lgg. cbn [exb b_end b_Vend]. rewrite ex_lgV.
      match goal with |- ln (exp ?y * 1 / 1) = _ => replace (exp y * 1 / 1) with (exp y) by field end. rewrite ln_exp. ring. }
    destruct (ex_finish exC (exb (-1)) (kA exC (ex_args (-1) x) (exb (-1)) w dn 1) eq_refl eq_refl) as (o & EO); [|rewrite EL; lra|].
    - cbn [kA k_a0M lp_m Mpc_m exC]. apply Rdiv_lt_0_compat; [apply Rmult_lt_0_compat; [apply exp_pos|lra]|lra].
    - exists o. split; [exact EO|]. apply pure_finish_inv in EO. destruct EO as (_ & _ & _ & ->). reflexivity. }
  destruct EP as (o & EP & ER).
  destruct (calibrate_succeeds exC exS (mkaeqs AT (-1) U) A (exs (-1)) (exb (-1)) o _ _ 3%nat exC_ok SN (exs_bg (-1)) eq_refl EP (exs_fields (-1)) ltac:(cbn; lia) exS_ok eq_refl eq_refl ltac:(lia)) as (s' & w' & E & P & F).
  exists s', w'. split; [exact E|]. destruct P as (((_ & _ & _ & _ & _ & _ & _ & _ & P9 & _) & _) & _). unfold scal. rewrite P9, ER. reflexivity.
Qed.
Theorem C40_nonvacuous U : exists s1 ws,
  calibrate_scale_factor exC exS (mkaeqs AT (-1) U) (with_reh (ex_args (-1) (-3)) "reheating" None (Some 0) (Some 2) None None) (exs (-1)) = (s1, Ok ws).
Proof. destruct (ex_curved_success U 0 2 (-3)) as (s1 & ws & E & _); [lra..|]. eauto. Qed.
Theorem C42_nonvacuous U : exists s1 ws, let a := with_reh (ex_args (-1) (-3)) "reheating" None (Some 0) (Some 2) None None in
  calibrate_scale_factor exC exS (mkaeqs AT (-1) U) a (exs (-1)) = (s1, Ok ws) /\ ca_h a = Some 1.
Proof. destruct (C40_nonvacuous U) as (s1 & ws & E). exists s1, ws. split; [exact E|]. cbn. destruct (Req_EM_T (-1) 0); [lra|reflexivity]. Qed.

Lemma ex_curved_rho U w dn x rho : -1/3 <= w -> w <> 1/3 -> 0 < dn -> rho = GeV exC (3/2 * 1 * exp (-3 * (1+w) * dn)) ->
  0 <= 4 + x + (1+w)^2 * dn / 4 * (1 - 3 * w) <= 3 ->
  exists s1 ws, calibrate_scale_factor exC exS (mkaeqs AT (-1) U) (with_reh (ex_args (-1) x) "reheating" None (Some w) None None (Some rho)) (exs (-1)) = (s1, Ok ws).
Proof.
  intros Hw Hw3 Hdn Er HX. set (A := with_reh _ _ _ _ _ _ _).
  assert (SN : sane A) by (split; cbn; [apply exp_pos|intros r [= <-]; subst rho; apply GeV_pos]).
  assert (EH : ca_h (ex_args (-1) x) = Some 1) by (cbn; destruct (Req_EM_T (-1) 0); [lra|reflexivity]).
  assert (EP : exists o, pure_first exC A (-1) (exb (-1)) = Ok o).
  { rewrite (curved_first exC A (-1) (exb (-1)) "reheating" 1); [|lra|reflexivity|exact EH|lra|reflexivity]. cbn [String.eqb Ascii.eqb Bool.eqb].
    unfold pure_curved_reheating. cbn [A with_reh ex_args ca_Omega_K0 is_given is_none negb].
    assert (NB : bad_reheating A = false) by (unfold bad_reheating, A, with_reh; cbn; destruct (Rlt_dec w (-1/3)); [lra|reflexivity]). fold (ex_args (-1) x). fold A. rewrite NB.
    pose proof (cases_B1 exC (ex_args (-1) x) (exb (-1)) w dn exC_ok ltac:(cbn; lra) Hw3 Hdn) as CB. unfold B1 in CB. cbn [exb b_Vend] in CB. rewrite <- Er in CB. fold A in CB. fold (exb (-1)) in CB. rewrite CB. cbn [bind].
    eapply ex_finish; [reflexivity|reflexivity| |].
    - cbn [k_a0M lp_m Mpc_m exC]. apply Rdiv_lt_0_compat; [apply Rmult_lt_0_compat; [apply exp_pos|lra]|lra].
    - cbn [k_a0M lp_m Mpc_m exC]. unfold A. rewrite ex_lgg. cbn [exb b_end b_Vend]. rewrite ex_lgV.
      match goal with |- context [exp ?y * 1 / 1] => replace (exp y * 1 / 1) with (exp y) by field end. rewrite ln_exp. lra. }
  destruct EP as (o & EP).
  destruct (calibrate_succeeds exC exS (mkaeqs AT (-1) U) A (exs (-1)) (exb (-1)) o _ _ 3%nat exC_ok SN (exs_bg (-1)) eq_refl EP (exs_fields (-1)) ltac:(cbn; lia) exS_ok eq_refl eq_refl ltac:(lia)) as (s' & w' & E & P & F).
  eauto.
Qed.
(** refuted for every other w_reh: here w_reh = 1/6 *)
Definition U0 : potfun := mkpotfun (fun _ => 1) (fun _ => 0) (fun _ => 0) (fun _ => 0).
Theorem C41_refuted : ~ C41_statement (fun _ => True).
Proof.
  intros H. destruct (ex_curved_success U0 (1/6) 2 (-3)) as (s1 & ws & E & Er); [lra..|].
  destruct (ex_curved_rho U0 (1/6) 2 (-3) _ ltac:(lra) ltac:(lra) ltac:(lra) eq_refl ltac:(lra)) as (s2 & ws2 & E2).
  assert (EH : ca_h (ex_args (-1) (-3)) = Some 1) by (cbn; destruct (Req_EM_T (-1) 0); [lra|reflexivity]).
  pose proof (H exC exS (mkaeqs AT (-1) U0) (ex_args (-1) (-3)) (exs (-1)) (exb (-1)) s1 ws (1/6) 2 1 s2 ws2 _ exC_ok (exp_pos _) (exs_bg (-1)) eq_refl eq_refl (or_intror eq_refl) EH ltac:(lra) ltac:(lra) ltac:(lra) I E Er E2) as X.
  pose proof (C41_value exC exS (mkaeqs AT (-1) U0) (ex_args (-1) (-3)) (exs (-1)) (exb (-1)) s1 ws (1/6) 2 1 s2 ws2 _ exC_ok (exp_pos _) (exs_bg (-1)) eq_refl eq_refl (or_intror eq_refl) EH ltac:(lra) ltac:(lra) ltac:(lra) E Er E2) as Y.
  unfold scal in *. rewrite Y in X. injection X as X. lra.
Qed.
