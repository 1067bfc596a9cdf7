(** Refinement, final part: the mask, the common part and the whole calibration. *)
From Coq Require Import Reals List String ZArith Bool Lra Lia.
From Verif Require Import Base Model.Equations Model.Float Model.Solution Model.Interp Model.State Model.Reheating
  Model.ApproxPower Model.Calibrate Spec.CalibSpec Proofs.BaseLemmas Proofs.FloatLemmas Proofs.DictLemmas Proofs.StateLemmas Proofs.CalibFrame
  Proofs.CalibPure Proofs.CalibPure2 Proofs.CalibPure3.
Import ListNotations.
Open Scope R_scope.
Open Scope string_scope.

Lemma run_bind_step {A B} (m : M A) (f : A -> M B) s s' x : m s = (s', Ok x) -> bindM m f s = f x s'.
Proof. unfold bindM. intros ->. reflexivity. Qed.

(** the mask after dropping repeated values of log(aH) *)
Definition umask (b : bg) : list bool := zipw andb (b_mask b) (first_occ [] (map Fin (logaH b))).
Definition remask (b : bg) : bg := mkbg (b_K b) (b_N b) (b_H b) (umask b) (b_beg b) (b_end b) (b_Hbeg b) (b_Hend b) (b_Vend b).

Lemma existsb_same f l x : (forall u v, f u = f v <-> u = v) ->
  existsb (same_fl (Fin (f x))) (map (fun u => Fin (f u)) l) = existsb (same_fl (Fin x)) (map Fin l).
Proof.
  intros I. induction l as [|a l IH]; [reflexivity|]. cbn [map existsb]. rewrite IH. f_equal. unfold same_fl. cbn [feq isnan].
  destruct (Req_EM_T (f x) (f a)) as [E|E], (Req_EM_T x a) as [E'|E']; try reflexivity.
  - exfalso. apply E', I, E.
  - exfalso. apply E, I, E'.
Qed.
Lemma first_occ_inj f l : (forall u v, f u = f v <-> u = v) -> forall seen,
  first_occ (map (fun u => Fin (f u)) seen) (map (fun u => Fin (f u)) l) = first_occ (map Fin seen) (map Fin l).
Proof.
  intros I. induction l as [|a l IH]; intros seen; [reflexivity|]. cbn [map first_occ]. rewrite (existsb_same f) by exact I. f_equal. exact (IH (a :: seen)).
Qed.
Lemma first_occ_length seen l : List.length (first_occ seen l) = List.length l.
Proof. revert seen; induction l as [|a l IH]; intros seen; simpl; auto. Qed.
Lemma zipw_length {A B D} (f : A -> B -> D) l m : List.length l = List.length m -> List.length (zipw f l m) = List.length m.
Proof. revert m; induction l as [|a l IH]; intros [|c m]; simpl; try discriminate; auto. Qed.
Lemma logaH_length N H : List.length H = List.length N -> List.length (logaH_of N H) = List.length N.
Proof. revert H; induction N as [|n N IH]; intros [|h H]; simpl; try discriminate; auto. Qed.
Lemma used_sub N H m k : incl (used N H (zipw andb m k)) (used N H m).
Proof.
  revert H m k; induction N as [|n N IH]; intros [|h H] [|b m] [|c k]; simpl; try (intros x []); try (destruct b; intros x []).
  destruct b, c; simpl; [apply incl_cons; [left; reflexivity|apply incl_tl, IH]|apply incl_tl, IH|apply IH|apply IH].
Qed.

Definition calib_attrs : list string :=
  ["a0"; "N0"; "Omega_K0"; "a0_Mpc"; "inflation_mask"; "logk"; "N_star"; "_N_cross"; "_logaH_star"; "H_star"; "delta_N_calib";
   "rho_reh_GeV"; "rho_reh_mp4"; "_N_reh"; "N_reh"; "w_reh"; "DeltaN_reh"; "DeltaN_minus1"; "N_end";
   "N"; "N_beg"; "N_cross"; "N_dagg"; "k_iMpc"; "_k"; "cHH_Mpc"; "cHH_end_Mpc"].

(** the background data survive any change of attributes outside of them *)
Definition bg_attrs : list string :=
  ["K"; "_N"; "H"; "_logaH"; "inflation_mask"; "_N_beg"; "_N_end"; "N_tot"; "H_end"; "V_end"; "_logaH_beg"; "_logaH_end"].
Lemma background_frame s s' b : background s b -> (forall k, In k bg_attrs -> dict_get k s' = dict_get k s) -> background s' b.
Proof.
  unfold background, scal, arr. intros H F.
  rewrite (F "K"), (F "_N"), (F "H"), (F "_logaH"), (F "inflation_mask"), (F "_N_beg"), (F "_N_end"), (F "N_tot"), (F "H_end"), (F "V_end"), (F "_logaH_beg"), (F "_logaH_end") by (unfold bg_attrs; inl).
  exact H.
Qed.
Lemma background_touch {A} ks (m : M A) s s' r b : touches ks m -> m s = (s', r) -> background s b ->
  (forall k, In k bg_attrs -> ~ In k ks) -> background s' b.
Proof. intros T E H N. eapply background_frame; [exact H|]. intros k I. exact (T _ _ _ E k (N k I)). Qed.
Lemma background_remask s s' b : background s b -> (forall k, k <> "inflation_mask" -> In k bg_attrs -> dict_get k s' = dict_get k s) ->
  dict_get "inflation_mask" s' = Some (VB (umask b)) -> background s' (remask b).
Proof.
  unfold background, scal, arr. intros H F M.
  rewrite (F "K"), (F "_N"), (F "H"), (F "_logaH"), (F "_N_beg"), (F "_N_end"), (F "N_tot"), (F "H_end"), (F "V_end"), (F "_logaH_beg"), (F "_logaH_end") by (first [discriminate | unfold bg_attrs; inl]).
  destruct H as (BK & BN & BH & BL & BM & Bb & Be & Bt & BHe & BV & Blb & Ble & L1 & L2 & FH & PHb & PHe & PV & FU).
  unfold remask, logaH. cbn [b_K b_N b_H b_mask b_beg b_end b_Hbeg b_Hend b_Vend].
  assert (LL : List.length (umask b) = List.length (b_N b)).
  { unfold umask. rewrite zipw_length; rewrite first_occ_length, map_length; unfold logaH; rewrite logaH_length by exact L1; auto. }
  repeat (split; [first [assumption]|]).
  apply Forall_forall. intros p I. rewrite Forall_forall in FU. apply FU. unfold umask in I. exact (used_sub _ _ _ _ p I).
Qed.

Lemma set_logk_run s b f : background s b -> (forall u v, f u = f v <-> u = v) ->
  exists s', set_logk (map (fun x => Fin (f x)) (logaH b)) s = (s', Ok tt) /\
    dict_get "inflation_mask" s' = Some (VB (umask b)) /\ arr s' "logk" (map f (select (umask b) (logaH b))) /\
    (forall k, k <> "inflation_mask" -> k <> "logk" -> dict_get k s' = dict_get k s).
Proof.
  intros (BK & BN & BH & BL & BM & R) I. unfold set_logk.
  erewrite run_bind_getB by exact BM.
  assert (E : zipw andb (b_mask b) (first_occ [] (map (fun x => Fin (f x)) (logaH b))) = umask b).
  { unfold umask. f_equal. exact (first_occ_inj f (logaH b) I []). }
  rewrite E. rewrite run_bind_setM. erewrite run_bind_getB by rd.
  replace (select (umask b) (map (fun x => Fin (f x)) (logaH b))) with (map Fin (map f (select (umask b) (logaH b))))
    by (rewrite map_map, <- select_map; reflexivity).
  eexists. split; [reflexivity|]. unfold arr, setattr. split; [gs|]. split; [gs|].
  intros k N1 N2. rewrite !get_set_neq by assumption. reflexivity.
Qed.

(** facts after the first part, for both geometries *)
Definition prepared (C : consts) (s : attrs) (b : bg) (o : cout) : Prop :=
  staged s o /\ background s (remask b) /\ scal s "a0_Mpc" (exp (o_ls o) / K_STAR C) /\
  arr s "logk" (map (fun x => x + ln (K_STAR C) - o_ls o) (maskedL (remask b))).

Lemma flat_finish_run C s b o : consts_ok C -> background s b -> staged s o ->
  exists s', flat_finish C s = (s', Ok tt) /\ prepared C s' b o.
Proof.
  intros HC HB HS. assert (HK : 0 < K_STAR C) by apply HC. unfold flat_finish.
  pose proof HB as (BK & BN & BH & BL & BM & R).
  pose proof HS as (S1 & S2 & S3 & S4 & S5 & S6 & S7 & S8 & S9 & S10 & S11 & S12). unfold scal, arr in *.
  erewrite run_bind_getF by rd. cbn [fexp]. rewrite fdiv_fin by lra. rewrite run_bind_setF. erewrite run_bind_getA by rd.
  rewrite flog_fin by exact HK.
  set (s1 := setattr "a0_Mpc" _ s).
  assert (HB1 : background s1 b).
  { eapply background_frame; [exact HB|]. intros k I. unfold s1, setattr. apply get_set_neq. intros ->. revert I. unfold bg_attrs. ni. }
  rewrite map_map. cbn [fadd fsub].
  destruct (set_logk_run s1 b (fun x => x + ln (K_STAR C) - o_ls o) HB1) as (s' & E & G1 & G2 & F); [intros; split; lra|].
  exists s'. split; [exact E|]. unfold prepared. split; [|split; [|split]].
  - unfold staged, scal. repeat split; rewrite F by discriminate; unfold s1; gs.
  - apply (background_remask s1); [exact HB1| |exact G1]. intros k N I. apply F; [exact N|]. intros ->. revert I. unfold bg_attrs. ni.
  - unfold scal. rewrite F by discriminate. unfold s1. gs.
  - exact G2.
Qed.

(** np.min / np.max of finite arrays *)
Definition lmin (h : R) (t : list R) : R := fold_left Rmin t h.
Definition lmax (h : R) (t : list R) : R := fold_left Rmax t h.
Lemma np_min_fin h t : np_min (map Fin (h :: t)) = Ok (Fin (lmin h t)).
Proof.
  unfold np_min, lmin. cbn [map]. f_equal. revert h; induction t as [|x t IH]; intros h; [reflexivity|]. cbn [map fold_left].
  replace (fmin2 (Fin h) (Fin x)) with (Fin (Rmin h x)); [apply IH|]. unfold fmin2. cbn [isnan flt]. destruct (Rlt_dec x h).
  - rewrite Rmin_right by lra. reflexivity.
  - rewrite Rmin_left by lra. reflexivity.
Qed.
Lemma np_max_fin h t : np_max (map Fin (h :: t)) = Ok (Fin (lmax h t)).
Proof.
  unfold np_max, lmax. cbn [map]. f_equal. revert h; induction t as [|x t IH]; intros h; [reflexivity|]. cbn [map fold_left].
  replace (fmax2 (Fin h) (Fin x)) with (Fin (Rmax h x)); [apply IH|]. unfold fmax2. cbn [isnan flt]. destruct (Rlt_dec h x).
  - rewrite Rmax_right by lra. reflexivity.
  - rewrite Rmax_left by lra. reflexivity.
Qed.

Definition pure_finish (C : consts) (b : bg) (ko : kout) : res cout :=
  let lk := map (fun x => x - ln (k_a0M ko)) (maskedL (remask b)) in
  let p := ln (K_STAR C) in
  match lk with
  | [] => Raise ValueError
  | h :: t =>
      if Rlt_dec p (lmin h t) then Raise InsufficientInflationError
      else if Rlt_dec (lmax h t) p then Raise InsufficientInflationError
      else
        do nc <- interp1d (combine lk (maskedN (remask b))) p;
        Ok (mkcout 0 (ln (K_STAR C * k_a0M ko)) nc (b_end b - nc) (k_dm ko) (k_nreh ko) (k_dn ko) (k_w ko) (k_rho ko) (k_N0 ko) (k_a0 ko) (k_OmK ko))
  end.
Lemma curved_finish_run C s b ko : consts_ok C -> background s b -> kstaged s ko -> scal s "delta_N_calib" 0 -> 0 < k_a0M ko ->
  match pure_finish C b ko with
  | Raise e => snd (curved_finish C s) = Raise e
  | Ok o => exists s', curved_finish C s = (s', Ok tt) /\ prepared C s' b o
  end.
Proof.
  intros HC HB HS HD HP. assert (HK : 0 < K_STAR C) by apply HC. unfold curved_finish.
  pose proof HB as (BK & BN & BH & BL & BM & Bb & Be & R).
  pose proof HS as (S1 & S2 & S3 & S4 & S5 & S6 & S7 & S8 & S9). unfold scal, arr in *.
  erewrite run_bind_getA by rd. erewrite run_bind_getF by rd. rewrite flog_fin by exact HP. rewrite map_map. cbn [fsub].
  destruct (set_logk_run s b (fun x => x - ln (k_a0M ko)) HB) as (s1 & E & G1 & G2 & F); [intros; split; lra|].
  rewrite (run_bind_step _ _ _ _ _ E). cbn [fmul].
  rewrite flog_fin by (apply Rmult_lt_0_compat; assumption). rewrite run_bind_setF. unfold arr in G2.
  erewrite run_bind_getA by rd. rewrite flog_fin by exact HK.
  unfold pure_finish. change (maskedL (remask b)) with (select (umask b) (logaH b)). cbv zeta.
  set (lk := map (fun x => x - ln (k_a0M ko)) (select (umask b) (logaH b))) in *.
  destruct lk as [|h t] eqn:EL; [reflexivity|].
  rewrite np_min_fin, np_max_fin, !run_bind_lift. cbn [flt].
  destruct (Rlt_dec (ln (K_STAR C)) (lmin h t)); [reflexivity|]. destruct (Rlt_dec (lmax h t) (ln (K_STAR C))); [reflexivity|]. cbn [orb].
  rewrite run_bind_bind. erewrite run_bind_getA by (unfold setattr; rewrite get_set_neq by discriminate; rewrite F by discriminate; exact BN).
  rewrite run_bind_bind. erewrite run_bind_getB by rd. rewrite run_bind_bind, select_map, interp_fl_fin.
  change (select (umask b) (b_N b)) with (maskedN (remask b)).
  destruct (interp1d (combine (h :: t) (maskedN (remask b))) (ln (K_STAR C))) as [nc|e]; [|reflexivity]. cbn [bind].
  rewrite run_bind_lift, run_bind_setF.
  erewrite run_bind_getF by (unfold setattr; rewrite !get_set_neq by discriminate; rewrite F by discriminate; exact Be).
  erewrite run_bind_getF by rd. cbn [fsub].
  eexists. split; [reflexivity|]. unfold prepared. cbn [o_ls o_nc o_ns]. split; [|split; [|split]].
  - unfold staged, scal. cbn [o_dc o_ls o_nc o_ns o_dm o_nreh o_dn o_w o_rho o_N0 o_a0 o_OmK]. unfold setattr.
    repeat split; repeat first [rewrite get_set_eq | rewrite get_set_neq by discriminate]; try reflexivity; rewrite F by discriminate; assumption.
  - apply (background_remask s); [exact HB| |unfold setattr; rewrite !get_set_neq by discriminate; exact G1].
    intros k N I. unfold setattr. rewrite !get_set_neq by (intros ->; revert I; unfold bg_attrs; ni). apply F; [exact N|]. intros ->; revert I; unfold bg_attrs; ni.
  - unfold scal, setattr. rewrite !get_set_neq by discriminate. rewrite F by discriminate. rewrite S8. repeat f_equal.
    rewrite exp_ln by (apply Rmult_lt_0_compat; assumption). field. lra.
  - unfold arr, setattr. rewrite !get_set_neq by discriminate. rewrite G2. repeat f_equal. rewrite <- EL. unfold lk.
    apply map_ext. intros x. rewrite ln_mult by assumption. lra.
Qed.

(** values after the common part *)
Definition cHHv (C : consts) (a0 N H : R) : R := a0 / (exp N * H) * lp_m C / Mpc_m C.
Definition calibrated (C : consts) (s : attrs) (b : bg) (o : cout) : Prop :=
  prepared C s b o /\
  arr s "N" (map (fun n => n + o_dc o) (b_N b)) /\ scal s "N_beg" (b_beg b + o_dc o) /\ scal s "N_end" (b_end b + o_dc o) /\
  dict_get "N_reh" s = Some (VF (fadd (o_nreh o) (Fin (o_dc o)))) /\ scal s "N_cross" (o_nc o + o_dc o) /\
  scal s "N_dagg" (o_nc o + o_dc o - (b_beg b + o_dc o)) /\
  arr s "k_iMpc" (map exp (map (fun x => x + ln (K_STAR C) - o_ls o) (maskedL (remask b)))) /\
  arr s "_k" (map exp (maskedL (remask b))) /\
  arr s "cHH_Mpc" (zipw (fun n h => cHHv C (o_a0 o) (n + o_dc o) h) (b_N b) (b_H b)) /\
  scal s "cHH_end_Mpc" (cHHv C (o_a0 o) (b_end b + o_dc o) (b_Hend b)).
Lemma cHH_fin C a0 N H : consts_ok C -> 0 < H -> cHH C (Fin a0) (Fin N) (Fin H) = Fin (cHHv C a0 N H).
Proof.
  intros HC HH. unfold cHH, cHHv. cbn [fexp fmul]. assert (0 < Mpc_m C) by apply HC.
  rewrite fdiv_fin by (apply Rmult_integral_contrapositive; split; [apply Rgt_not_eq, exp_pos|lra]). cbn [fmul]. apply fdiv_fin. lra.
Qed.
Lemma cHH_list C a0 N H dc : consts_ok C -> Forall (fun h => 0 < h) H ->
  zipw (cHH C (Fin a0)) (map (fun n => fadd n (Fin dc)) (map Fin N)) (map Fin H) = map Fin (zipw (fun n h => cHHv C a0 (n + dc) h) N H).
Proof.
  intros HC. revert H; induction N as [|n N IH]; intros [|h H] F; try reflexivity. inversion F; subst. cbn [map zipw fadd].
  rewrite cHH_fin by assumption. f_equal. apply IH. assumption.
Qed.

Lemma common_run C s a b o : consts_ok C -> ca_background a = None -> prepared C s b o ->
  exists s' w, calibrate_common C a s = (s', Ok w) /\ calibrated C s' b o /\
    w = (if flt (o_dn o) (Fin 0) then [NegativeReheating] else if flt (Fin (o_N0 o)) (fadd (o_nreh o) (Fin (o_dc o))) then [ReheatingAfterToday] else []).
Proof.
  intros HC HA HP. pose proof HP as (HS & HB & HM & HL).
  pose proof HS as (S1 & S2 & S3 & S4 & S5 & S6 & S7 & S8 & S9 & S10 & S11 & S12).
  pose proof HB as (BK & BN & BH & BL & BM & Bb & Be & Bt & BHe & BV & Blb & Ble & _ & _ & FH & _ & PHe & PV & _).
  cbn [remask b_K b_N b_H b_mask b_beg b_end b_Hbeg b_Hend b_Vend] in *.
  assert (RM : forall s', calibrate_common C a s = s' -> forall k, ~ In k common_attrs -> dict_get k (fst s') = dict_get k s).
  { intros [s' r] E k N. exact (touches_common C a _ _ _ E k N). }
  assert (MAIN : exists s' w, calibrate_common C a s = (s', Ok w) /\
     w = (if flt (o_dn o) (Fin 0) then [NegativeReheating] else if flt (Fin (o_N0 o)) (fadd (o_nreh o) (Fin (o_dc o))) then [ReheatingAfterToday] else []) /\
    arr s' "N" (map (fun n => n + o_dc o) (b_N b)) /\ scal s' "N_beg" (b_beg b + o_dc o) /\ scal s' "N_end" (b_end b + o_dc o) /\
  dict_get "N_reh" s' = Some (VF (fadd (o_nreh o) (Fin (o_dc o)))) /\ scal s' "N_cross" (o_nc o + o_dc o) /\
  scal s' "N_dagg" (o_nc o + o_dc o - (b_beg b + o_dc o)) /\
  arr s' "k_iMpc" (map exp (map (fun x => x + ln (K_STAR C) - o_ls o) (maskedL (remask b)))) /\
  arr s' "_k" (map exp (maskedL (remask b))) /\
  arr s' "cHH_Mpc" (zipw (fun n h => cHHv C (o_a0 o) (n + o_dc o) h) (b_N b) (b_H b)) /\
  scal s' "cHH_end_Mpc" (cHHv C (o_a0 o) (b_end b + o_dc o) (b_Hend b))).
  { clear RM. unfold scal, arr in *. unfold calibrate_common. rewrite HA.
    erewrite run_bind_getF by rd. erewrite run_bind_getA by rd. rewrite run_bind_setM.
    erewrite run_bind_getF by rd. rewrite run_bind_setF. erewrite run_bind_getF by rd. rewrite run_bind_setF.
    erewrite run_bind_getF by rd. rewrite run_bind_setF. erewrite run_bind_getF by rd. rewrite run_bind_setF.
    erewrite run_bind_getF by rd. erewrite run_bind_getF by rd. rewrite run_bind_setF.
    erewrite run_bind_getA by rd. rewrite run_bind_setM. erewrite run_bind_getA by rd. erewrite run_bind_getB by rd. rewrite run_bind_setM.
    cbn [fadd fsub].
    change (logaH (remask b)) with (logaH b).
    rewrite select_map. change (select (umask b) (logaH b)) with (maskedL (remask b)).
    rewrite run_bind_bind. erewrite run_bind_getF by rd.
    set (W := if flt (o_dn o) (Fin 0) then [NegativeReheating] else if flt (Fin (o_N0 o)) (fadd (o_nreh o) (Fin (o_dc o))) then [ReheatingAfterToday] else []).
    match goal with |- exists s' w, bindM _ ?f ?st = _ /\ _ => 
      assert (EW : forall x, bindM x f st = bindM x f st) by reflexivity; set (FF := f) in *; set (ST := st) in * end.
    clear EW.
    assert (EE : bindM (if flt (o_dn o) (Fin 0) then retM [NegativeReheating]
             else xr <<- getF "N_reh"; n0 <<- getF "N0"; if flt n0 xr then retM [ReheatingAfterToday] else retM []) FF ST = FF W ST).
    { unfold W. destruct (flt (o_dn o) (Fin 0)); [reflexivity|]. rewrite run_bind_bind. unfold ST. erewrite run_bind_getF by rd.
      rewrite run_bind_bind. erewrite run_bind_getF by rd. destruct (flt (Fin (o_N0 o)) (fadd (o_nreh o) (Fin (o_dc o)))); reflexivity. }
    rewrite EE. unfold FF, ST. clear EE FF ST.
    erewrite run_bind_getF by rd. erewrite run_bind_getA by rd. erewrite run_bind_getA by rd. rewrite run_bind_setM.
    rewrite cHH_list by assumption. erewrite run_bind_getF by rd. erewrite run_bind_getF by rd. rewrite run_bind_setF.
    rewrite cHH_fin by assumption.
    eexists. exists W. split; [reflexivity|]. split; [reflexivity|].
    rewrite !map_map. unfold setattr.
    repeat split; repeat first [rewrite get_set_eq | rewrite get_set_neq by discriminate]; reflexivity. }
  destruct MAIN as (s' & w & E & EW & F1 & F2 & F3 & F4 & F5 & F6 & F7 & F8 & F9 & F10). exists s', w. split; [exact E|]. split; [|exact EW].
  pose proof (RM _ eq_refl) as R. rewrite E in R. cbn [fst] in R.
  unfold calibrated. split; [|tauto]. unfold prepared.
  split; [|split; [|split]].
  - unfold staged, scal in *. repeat split; (rewrite R by (unfold common_attrs; ni)); assumption.
  - eapply background_frame; [exact HB|]. intros k I. apply R. revert I. clear. unfold bg_attrs, common_attrs. cbn [In]. intros H.
    repeat (destruct H as [<-|H]; [intros J; repeat (destruct J as [J|J]; [discriminate J|]); exact J|]). destruct H.
  - unfold scal in *. rewrite R by (unfold common_attrs; ni). assumption.
  - unfold arr in *. rewrite R by (unfold common_attrs; ni). assumption.
Qed.

(** the whole calibration as a pure function *)
Definition pure_first (C : consts) (a : calargs) (K : R) (b : bg) : res cout :=
  if Req_EM_T K 0 then
    do _ <- match ca_Omega_K0 a with Some o => if Req_EM_T o 0 then Ok tt else Raise ValueError | None => Ok tt end;
    let me := match ca_method a with Some x => x | None => "N_star" end in
    if String.eqb me "N_star" then pure_N_star C a b
    else if String.eqb me "reheating" then pure_flat_reheating C a b
    else Raise NotImplementedError
  else if is_given (ca_N_star a) then Raise ValueError
  else match ca_h a with
  | None => Raise ValueError
  | Some h =>
      if Rle_dec h 0 then Raise ValueError
      else
        let me := match ca_method a with Some x => x | None => "Omega_K0" end in
        do ko <- (if String.eqb me "Omega_K0" then pure_Omega C a h b
                  else if String.eqb me "reheating" then pure_curved_reheating C a h b
                  else Raise NotImplementedError);
        pure_finish C b ko
  end.
Lemma k_a0M_pos C a h b ko me : consts_ok C -> 0 < h ->
  (if String.eqb me "Omega_K0" then pure_Omega C a h b else if String.eqb me "reheating" then pure_curved_reheating C a h b else Raise NotImplementedError) = Ok ko -> 0 < k_a0M ko.
Proof.
  intros HC Hh. destruct (String.eqb me "Omega_K0").
  - unfold pure_Omega. destruct (ca_Omega_K0 a) as [o|]; [|discriminate]. destruct (Req_EM_T o 0) as [|N]; [discriminate|].
    destruct (Req_EM_T (np_sign o) (- b_K b)) as [E|]; [|discriminate].
    destruct (a0M_pos C b h HC Hh o N E) as [_ P]. destruct (ca_rho_reh_GeV a); intros [= <-]; exact P.
  - destruct (String.eqb me "reheating"); [|discriminate]. unfold pure_curved_reheating.
    destruct (is_given (ca_Omega_K0 a)); [discriminate|]. destruct (bad_reheating a); [discriminate|].
    destruct (pure_curved_cases C a b) as [[[[[dm nr] dn] w] rho]|]; [|discriminate]. cbn [bind]. intros [= <-]. cbn [k_a0M].
    apply Rdiv_lt_0_compat; [apply Rmult_lt_0_compat; [apply exp_pos|apply HC]|apply HC].
Qed.

Lemma bg_not_in ks : forallb (fun k => negb (existsb (String.eqb k) ks)) bg_attrs = true -> forall k, In k bg_attrs -> ~ In k ks.
Proof.
  intros H k I J. rewrite forallb_forall in H. specialize (H k I). apply negb_true_iff in H.
  assert (T : existsb (String.eqb k) ks = true) by (apply existsb_exists; exists k; split; [exact J|apply String.eqb_refl]). congruence.
Qed.

Theorem calibrate_run C S q a s b : consts_ok C -> sane a -> background s b -> ca_background a = None ->
  match pure_first C a (a_K q) b with
  | Raise e => snd (calibrate_scale_factor C S q a s) = Raise e
  | Ok o => exists s1 w, calibrated C s1 b o /\
      w = (if flt (o_dn o) (Fin 0) then [NegativeReheating] else if flt (Fin (o_N0 o)) (fadd (o_nreh o) (Fin (o_dc o))) then [ReheatingAfterToday] else []) /\
      (forall k, ~ In k calib_attrs -> dict_get k s1 = dict_get k s) /\
      calibrate_scale_factor C S q a s =
        bindM (derive_approx_power C S q (ca_approx a) (ca_order a) (ca_opts a)) (fun _ => retM w) s1
  end.
Proof.
  intros HC HA HB HN. unfold calibrate_scale_factor. rewrite HN.
  (* the first part *)
  assert (FIRST : match pure_first C a (a_K q) b with
     | Raise e => snd ((if Req_EM_T (a_K q) 0 then calibrate_flat C a else calibrate_curved C a) s) = Raise e
     | Ok o => exists s1, (if Req_EM_T (a_K q) 0 then calibrate_flat C a else calibrate_curved C a) s = (s1, Ok tt) /\ prepared C s1 b o /\
         (forall k, ~ In k calib_attrs -> dict_get k s1 = dict_get k s) end).
  { unfold pure_first. destruct (Req_EM_T (a_K q) 0) as [EK|NK].
    - unfold calibrate_flat. rewrite HN.
      assert (TT : touches calib_attrs (calibrate_flat C a)).
      { unfold calibrate_flat. rewrite HN. unfold calib_attrs. touch;
        first [eapply touches_incl; [apply touches_flat_N_star|] | eapply touches_incl; [apply touches_flat_reheating|] | eapply touches_incl; [apply touches_flat_finish|]];
        unfold flat_N_star_attrs, reh_attrs, finish_attrs; cbn [app]; intros k H; cbn [In] in *; tauto. }
      unfold calibrate_flat in TT. rewrite HN in TT.
      destruct (match ca_Omega_K0 a with Some o => if Req_EM_T o 0 then Ok tt else Raise ValueError | None => Ok tt end) as [[]|e0] eqn:EO.
      2:{ cbn [bind]. destruct (ca_Omega_K0 a) as [o|]; [|discriminate]. destruct (Req_EM_T o 0); [discriminate|]. injection EO as <-. reflexivity. }
      cbn [bind].
      assert (EOm : forall (X : M unit) st, bindM (match ca_Omega_K0 a with Some o => if Req_EM_T o 0 then retM tt else raiseM ValueError | None => retM tt end) (fun _ => X) st = X st).
      { intros X st. destruct (ca_Omega_K0 a) as [o|]; [|reflexivity]. destruct (Req_EM_T o 0); [reflexivity|discriminate]. }
      match goal with |- match ?p with Ok _ => exists s1, ?f s = _ /\ _ | Raise _ => _ end => set (PP := p); set (ff := f) in * end.
      assert (EF : ff s = (setF "a0" (Fin 1);; setF "N0" (Fin 0);; setF "Omega_K0" (Fin 0);;
        (let me := match ca_method a with Some x => x | None => "N_star" end in
         if String.eqb me "N_star" then flat_N_star C a else if String.eqb me "reheating" then flat_reheating C a else raiseM NotImplementedError);; flat_finish C) s).
      { unfold ff. apply EOm. }
      clearbody ff. rewrite !run_bind_setF in EF. cbv zeta in EF.
      set (s0 := setattr "Omega_K0" _ _) in EF.
      assert (HB0 : background s0 b).
      { eapply background_frame; [exact HB|]. intros k I. unfold s0, setattr. rewrite !get_set_neq by (intros ->; revert I; unfold bg_attrs; ni). reflexivity. }
      assert (Q1 : scal s0 "N0" 0) by (unfold s0, scal; gs). assert (Q2 : scal s0 "a0" 1) by (unfold s0, scal; gs). assert (Q3 : scal s0 "Omega_K0" 0) by (unfold s0, scal; gs).
      clearbody s0. unfold PP. clear PP. cbv zeta.
      assert (GEN : forall m p, refines (m s0) p -> touches flat_N_star_attrs m -> ff s = (m ;; flat_finish C) s0 ->
        match p with Ok o => exists s1, ff s = (s1, Ok tt) /\ prepared C s1 b o /\ (forall k, ~ In k calib_attrs -> dict_get k s1 = dict_get k s) | Raise e => snd (ff s) = Raise e end).
      { intros m p RF TM EQ. unfold bindM in EQ. destruct (m s0) as [s2 r2] eqn:E2. destruct p as [o|e]; cbn [refines fst snd] in RF.
        - destruct RF as [-> ST]. pose proof (background_touch _ _ _ _ _ _ TM E2 HB0 (bg_not_in flat_N_star_attrs eq_refl)) as HB2.
          destruct (flat_finish_run C s2 b o HC HB2 ST) as (s3 & E3 & P3). exists s3. rewrite EQ. split; [exact E3|]. split; [exact P3|].
          intros k N. apply (TT s s3 (Ok tt)); [rewrite EQ; exact E3|exact N].
        - subst r2. rewrite EQ. reflexivity. }
      destruct (String.eqb _ "N_star").
      + apply GEN with (m := flat_N_star C a); [apply flat_N_star_refines; assumption|apply touches_flat_N_star|exact EF].
      + destruct (String.eqb _ "reheating").
        * apply GEN with (m := flat_reheating C a); [apply flat_reheating_refines; assumption|apply touches_flat_reheating|exact EF].
        * rewrite EF. reflexivity.
    - assert (TT : touches calib_attrs (calibrate_curved C a)).
      { unfold calibrate_curved. unfold calib_attrs. touch;
        first [eapply touches_incl; [apply touches_curved_Omega_K0|] | eapply touches_incl; [apply touches_curved_reheating|] | eapply touches_incl; [apply touches_curved_finish|]];
        unfold curved_attrs; cbn [app]; intros k H; cbn [In] in *; tauto. }
      unfold calibrate_curved. destruct (is_given (ca_N_star a)) eqn:EN; [reflexivity|]. destruct (ca_h a) as [h|] eqn:EH; [|reflexivity].
      destruct (Rle_dec h 0) as [Hle|Hgt]; [reflexivity|]. assert (Hh : 0 < h) by lra.
      assert (EF : calibrate_curved C a s = (setF "delta_N_calib" (Fin 0);; (let me := match ca_method a with Some x => x | None => "Omega_K0" end in
         if String.eqb me "Omega_K0" then curved_Omega_K0 C a h else if String.eqb me "reheating" then curved_reheating C a h else raiseM NotImplementedError);; curved_finish C) s).
      { unfold calibrate_curved. rewrite EN, EH. destruct (Rle_dec h 0); [lra|]. reflexivity. }
      match goal with |- match ?p with Ok _ => exists s1, ?f s = _ /\ _ | Raise _ => _ end => change (f s) with ((setF "delta_N_calib" (Fin 0);; (let me := match ca_method a with Some x => x | None => "Omega_K0" end in
         if String.eqb me "Omega_K0" then curved_Omega_K0 C a h else if String.eqb me "reheating" then curved_reheating C a h else raiseM NotImplementedError);; curved_finish C) s) end.
      rewrite <- EF. set (ff := calibrate_curved C a) in *. clearbody ff.
      rewrite !run_bind_setF in EF. cbv zeta in *. set (me := match ca_method a with Some x => x | None => "Omega_K0" end) in *.
      set (s0 := setattr "delta_N_calib" _ s) in EF.
      assert (HB0 : background s0 b).
      { eapply background_frame; [exact HB|]. intros k I. unfold s0, setattr. rewrite !get_set_neq by (intros ->; revert I; unfold bg_attrs; ni). reflexivity. }
      assert (Q1 : scal s0 "delta_N_calib" 0) by (unfold s0, scal; gs). clearbody s0.
      destruct (if String.eqb me "Omega_K0" then pure_Omega C a h b else if String.eqb me "reheating" then pure_curved_reheating C a h b else Raise NotImplementedError) as [ko|e] eqn:EKO; cbn [bind].
      + pose proof (k_a0M_pos C a h b ko me HC Hh EKO) as PA.
        assert (GEN : forall m, krefines (m s0) (Ok ko) -> touches curved_attrs m -> ff s = (m ;; curved_finish C) s0 ->
          match pure_finish C b ko with Ok o => exists s1, ff s = (s1, Ok tt) /\ prepared C s1 b o /\ (forall k, ~ In k calib_attrs -> dict_get k s1 = dict_get k s) | Raise e => snd (ff s) = Raise e end).
        { intros m RF TM EQ. unfold bindM in EQ. destruct (m s0) as [s2 r2] eqn:E2. cbn [krefines fst snd] in RF. destruct RF as [-> ST].
          pose proof (background_touch _ _ _ _ _ _ TM E2 HB0 (bg_not_in curved_attrs eq_refl)) as HB2.
          assert (Q2 : scal s2 "delta_N_calib" 0) by (unfold scal; rewrite (TM _ _ _ E2 "delta_N_calib" ltac:(unfold curved_attrs; ni)); exact Q1).
          pose proof (curved_finish_run C s2 b ko HC HB2 ST Q2 PA) as R. rewrite EQ. destruct (pure_finish C b ko) as [o|e].
          - destruct R as (s3 & E3 & P3). exists s3. split; [exact E3|]. split; [exact P3|]. intros k N. apply (TT s s3 (Ok tt)); [rewrite EQ; exact E3|exact N].
          - exact R. }
        destruct (String.eqb me "Omega_K0").
        * apply GEN with (m := curved_Omega_K0 C a h); [rewrite <- EKO; apply Omega_refines; assumption|apply touches_curved_Omega_K0|exact EF].
        * destruct (String.eqb me "reheating"); [|discriminate].
          apply GEN with (m := curved_reheating C a h); [rewrite <- EKO; apply curved_reheating_refines; assumption|apply touches_curved_reheating|exact EF].
      + rewrite EF. unfold bindM. destruct (String.eqb me "Omega_K0").
        * pose proof (Omega_refines C a s0 b h HC HA HB0 Hh) as RF. rewrite EKO in RF. cbn [krefines] in RF. destruct (curved_Omega_K0 C a h s0) as [s2 r2]; cbn [snd] in *; subst r2. reflexivity.
        * destruct (String.eqb me "reheating").
          -- pose proof (curved_reheating_refines C a s0 b h HC HA HB0 Hh) as RF. rewrite EKO in RF. cbn [krefines] in RF. destruct (curved_reheating C a h s0) as [s2 r2]; cbn [snd] in *; subst r2. reflexivity.
          -- injection EKO as <-. reflexivity. }
  destruct (pure_first C a (a_K q) b) as [o|e].
  - destruct FIRST as (s1 & E1 & P1 & F1). destruct (common_run C s1 a b o HC HN P1) as (s2 & w & E2 & P2 & EW).
    exists s2, w. split; [exact P2|]. split; [exact EW|]. split.
    + intros k N. rewrite (touches_common C a _ _ _ E2 k); [apply F1, N|]. intros I. apply N. revert I. unfold common_attrs, calib_attrs. cbn [In]. tauto.
    + unfold bindM at 1. rewrite E1. unfold bindM at 1. rewrite E2. reflexivity.
  - unfold bindM at 1. destruct ((if Req_EM_T (a_K q) 0 then calibrate_flat C a else calibrate_curved C a) s) as [s1 r1]. cbn [snd] in FIRST. subst r1. reflexivity.
Qed.
