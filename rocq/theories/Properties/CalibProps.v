(** Calibration of the scale factor: properties C36-C38, C42, C44, C45. *)
From Coq Require Import Reals List String ZArith Bool Lra Lia FinFun.
From Verif Require Import Base Model.Equations Model.Background Model.Float Model.Solution Model.Interp Model.State Model.Reheating
  Model.ApproxPower Model.Calibrate Spec.CalibSpec Proofs.BaseLemmas Proofs.FloatLemmas Proofs.DictLemmas Proofs.StateLemmas Proofs.CalibFrame
  Proofs.CalibPure Proofs.CalibPure2 Proofs.CalibPure3 Proofs.CalibRun Proofs.PowerRun Proofs.CalibResult Proofs.CalibTotal.
Import ListNotations.
Open Scope R_scope.
Open Scope string_scope.

(** the method used: the keyword or the default of the geometry *)
Definition method (K : R) (a : calargs) : string :=
  match ca_method a with Some m => m | None => if Req_EM_T K 0 then "N_star" else "Omega_K0" end.

(** ** C36 *)
(** Flat universe, calibration by N_star: the pivot scale (in Planck units) is the comoving Hubble
    scale at N_star e-folds before the end, log(aH) being interpolated there, and every calibrated
    e-fold number is the uncalibrated one plus one and the same constant. *)
Theorem C36_pivot_crossing : forall C S q a s b s' w ns,
  consts_ok C -> sane a -> background s b -> ca_background a = None -> a_K q = 0 -> method 0 a = "N_star" -> ca_N_star a = Some ns ->
  calibrate_scale_factor C S q a s = (s', Ok w) ->
  exists ls d, scal s' "_logaH_star" ls /\ scal s' "delta_N_calib" d /\ scal s' "N_star" ns /\
    scal s' "_N_cross" (b_end b - ns) /\
    interp1d (combine (select (b_mask b) (b_N b)) (select (b_mask b) (logaH b))) (b_end b - ns) = Ok ls /\
    exp (ls + d) = K_STAR C / Mpc_m C * lp_m C /\
    arr s' "N" (map (fun n => n + d) (b_N b)) /\ scal s' "N_beg" (b_beg b + d) /\ scal s' "N_end" (b_end b + d) /\
    scal s' "N_cross" (b_end b - ns + d).
Proof.
  intros C S q a s b s' w ns HC HA HB HN HK HM ENS E.
  destruct (calibrate_result C S q a s b s' w HC HA HB HN E) as (o & EP & P & _). rewrite HK in EP.
  assert (HM' : match ca_method a with Some x => x | None => "N_star" end = "N_star").
  { unfold method in HM. destruct (ca_method a); [exact HM|reflexivity]. }
  pose proof (pure_scale C a b o 0 HC EP) as (A0 & N0 & SC).
  apply pure_flat_inv in EP. destruct EP as [[_ EP]|[E2 _]]; [|rewrite HM' in E2; discriminate].
  apply pure_N_star_inv in EP. destruct EP as (ns' & ENS' & _ & O1 & O2 & EI & D & _ & OA & _). rewrite ENS in ENS'. injection ENS' as <-.
  destruct P as (((P1 & P2 & P3 & P4 & _) & _) & Q1 & Q2 & Q3 & _ & Q5 & _).
  rewrite O1 in P4. rewrite O2 in P3, Q5. exists (o_ls o), (o_dc o). repeat (split; [assumption|]).
  split; [|tauto]. rewrite OA in SC. unfold K_STAR_lp in SC. rewrite (Rplus_comm (o_ls o)). lra.
Qed.
Definition ex36 : calargs := mkargs None None None (Some (3/2)) None None None None 100 None "CGS" (Some 3%Z) default_opts.
Lemma ex36_pure : exists o, pure_first exC ex36 0 (exb 0) = Ok o /\ o_ls o = 5/2.
Proof.
  unfold pure_first, ex36. destruct (Req_EM_T 0 0); [|lra]. cbn [ca_Omega_K0 ca_method bind String.eqb Ascii.eqb Bool.eqb].
  unfold pure_N_star. cbn [ca_N_star]. destruct (Rle_dec (3/2) 0); [lra|]. cbn [exb b_end b_beg]. destruct (Rlt_dec _ _); [lra|].
  fold (exb 0). rewrite exb_maskedL. change (combine (maskedN (exb 0)) [0; 1; 2; 3]) with [(0, 0); (1, 1); (2, 2); (3, 3)].
  rewrite ex_interp by lra. cbn [bind pure_N_star_reh ca_rho_reh_GeV ca_w_reh ca_DeltaN_reh fst snd]. eexists. split; [reflexivity|]. cbn. lra.
Qed.
Theorem C36_nonvacuous U : exists s' w,
  calibrate_scale_factor exC exS (mkaeqs AT 0 U) ex36 (exs 0) = (s', Ok w) /\ sane ex36 /\ scal s' "_logaH_star" (5/2) /\ scal s' "_N_cross" (5/2).
Proof.
  destruct ex36_pure as (o & EP & EL). assert (SN : sane ex36) by (split; cbn; [lra|discriminate]).
  destruct (calibrate_succeeds exC exS (mkaeqs AT 0 U) ex36 (exs 0) (exb 0) o _ _ 3%nat exC_ok SN (exs_bg 0) eq_refl EP (exs_fields 0) ltac:(cbn; lia) exS_ok eq_refl eq_refl ltac:(lia)) as (s' & w & E & P & _).
  exists s', w. split; [exact E|]. split; [exact SN|].
  destruct (C36_pivot_crossing exC exS (mkaeqs AT 0 U) ex36 (exs 0) (exb 0) s' w (3/2) exC_ok SN (exs_bg 0) eq_refl eq_refl) as (ls & d & L1 & _ & _ & L2 & _); [|reflexivity|exact E|].
  { unfold method, ex36. cbn. destruct (Req_EM_T 0 0); [reflexivity|lra]. }
  destruct P as (((_ & PL & _) & _) & _). unfold scal in *. rewrite EL in PL. split; [exact PL|].
  rewrite L2. do 3 f_equal. cbn. lra.
Qed.

(** ** C37 *)
Theorem C37_bookkeeping : forall C S q a s b s' w,
  consts_ok C -> sane a -> background s b -> ca_background a = None -> calibrate_scale_factor C S q a s = (s', Ok w) ->
  exists N_star N_dagg N_tot N_beg N_end N_cross,
    scal s' "N_star" N_star /\ scal s' "N_dagg" N_dagg /\ scal s' "N_tot" N_tot /\ scal s' "N_beg" N_beg /\
    scal s' "N_end" N_end /\ scal s' "N_cross" N_cross /\
    N_star + N_dagg = N_tot /\ N_tot = N_end - N_beg /\ N_cross = N_end - N_star.
Proof.
  intros C S q a s b s' w HC HA HB HN E.
  destruct (calibrate_result C S q a s b s' w HC HA HB HN E) as (o & EP & P & _). apply pure_ns in EP.
  destruct P as (((P1 & P2 & P3 & P4 & _) & BG & _) & Q1 & Q2 & Q3 & Q4 & Q5 & Q6 & _).
  destruct BG as (_ & _ & _ & _ & _ & _ & _ & BT & _). cbn in BT.
  do 6 eexists. do 6 (split; [eassumption|]). lra.
Qed.
Theorem C37_nonvacuous U : exists s' w, calibrate_scale_factor exC exS (mkaeqs AT 0 U) ex36 (exs 0) = (s', Ok w).
Proof. destruct (C36_nonvacuous U) as (s' & w & E & _). eauto. Qed.

(** ** C38 *)
(** [k_iMpc] is 1/[cHH_Mpc] at the retained samples, and k K_STAR / exp(_logaH_star), the conversion of
    PrimordialPowerSpectrum (perturbations.py:16), maps the internal wavenumbers [_k] to [k_iMpc]. *)
Theorem C38_wavenumbers : forall C S q a s b s' w,
  consts_ok C -> sane a -> background s b -> ca_background a = None -> calibrate_scale_factor C S q a s = (s', Ok w) ->
  exists mask ks ki cs ls, dict_get "inflation_mask" s' = Some (VB mask) /\ arr s' "k_iMpc" ks /\ arr s' "_k" ki /\
    arr s' "cHH_Mpc" cs /\ scal s' "_logaH_star" ls /\
    ks = map (fun c => 1 / c) (select mask cs) /\ ks = map (fun k => k * K_STAR C / exp ls) ki /\
    ki = select mask (zipw (fun n h => exp n * h) (b_N b) (b_H b)).
Proof.
  intros C S q a s b s' w HC HA HB HN E.
  destruct (calibrate_result C S q a s b s' w HC HA HB HN E) as (o & EP & P & _).
  pose proof (pure_scale C a b o _ HC EP) as (A0 & N0 & SC).
  destruct P as (((P1 & P2 & P3 & P4 & _) & BG & _) & _ & _ & _ & _ & _ & _ & Q7 & Q8 & Q9 & _).
  destruct BG as (_ & _ & _ & _ & BM & _). cbn [remask b_mask] in BM.
  do 5 eexists. do 5 (split; [eassumption|]).
  assert (HH : Forall (fun h => 0 < h) (b_H b)) by apply HB.
  pose proof HC as (C1 & C2 & C3 & _). unfold K_STAR_lp in SC.
  split; [|split].
  - rewrite map_map. unfold maskedL, logaH. cbn [remask b_mask b_N b_H]. rewrite <- !select_map. f_equal.
    revert HH. generalize (b_H b). generalize (b_N b). induction l as [|n N IH]; intros [|h H] F; try reflexivity. inversion F; subst. cbn [logaH_of map zipw]. f_equal; [|apply IH; assumption].
    replace (n + ln h + ln (K_STAR C) - o_ls o) with (n + o_dc o + ln h + ln (K_STAR C) + - (o_dc o + o_ls o)) by ring.
    rewrite !exp_plus, exp_Ropp, <- SC, !exp_ln by assumption. unfold cHHv. rewrite exp_plus. field. repeat split; try lra; apply Rgt_not_eq, exp_pos.
  - rewrite !map_map. apply map_ext. intros x. unfold Rminus. rewrite !exp_plus, exp_Ropp, exp_ln by assumption. reflexivity.
  - unfold maskedL, logaH. cbn [remask b_mask b_N b_H]. rewrite <- !select_map. f_equal.
    revert HH. generalize (b_H b). generalize (b_N b). induction l as [|n N IH]; intros [|h H] F; try reflexivity. inversion F; subst. cbn [logaH_of map zipw]. f_equal; [|apply IH; assumption].
    rewrite exp_plus, exp_ln by assumption. reflexivity.
Qed.

(** ** C42 *)
Theorem C42_curvature_radius : forall C S q a s b s' w h,
  consts_ok C -> sane a -> background s b -> ca_background a = None -> a_K q = b_K b -> b_K b <> 0 -> (b_K b = 1 \/ b_K b = -1) -> ca_h a = Some h ->
  calibrate_scale_factor C S q a s = (s', Ok w) ->
  exists a0 a0_Mpc Om N0, scal s' "a0" a0 /\ scal s' "a0_Mpc" a0_Mpc /\ scal s' "Omega_K0" Om /\ scal s' "N0" N0 /\
    a0_Mpc = a0 * lp_m C / Mpc_m C /\ N0 = ln a0 /\
    (forall o, method (b_K b) a = "Omega_K0" -> ca_Omega_K0 a = Some o -> Om = o) /\
    (* Omega_K = -K c^2 / (a0 H0)^2 with H0 = 100 h km/s/Mpc *)
    Om = - b_K b * c_light C ^ 2 / (a0_Mpc * (h * 100 * 1000))^2.
Proof.
  intros C S q a s b s' w h HC HA HB HN EK NK HK Hh E.
  destruct (calibrate_result C S q a s b s' w HC HA HB HN E) as (o & EP & P & _). rewrite EK in EP.
  pose proof (pure_scale C a b o _ HC EP) as (A0 & N0 & SC).
  destruct P as (((_ & _ & _ & _ & _ & _ & _ & _ & _ & PN & PA & PO) & _ & PM & _) & _).
  exists (o_a0 o), (exp (o_ls o) / K_STAR C), (o_OmK o), (o_N0 o). do 4 (split; [assumption|]).
  apply pure_curved_inv in EP; [|exact NK]. destruct EP as (h' & ko & _ & Eh & Hp & EF & EK'). rewrite Hh in Eh. injection Eh as <-.
  apply pure_finish_inv in EF. destruct EF as (_ & _ & _ & EO).
  pose proof HC as (C1 & C2 & C3 & _ & _ & _ & _ & C8).
  assert (EM : exp (o_ls o) / K_STAR C = o_a0 o * lp_m C / Mpc_m C).
  { rewrite EO in SC |- *. cbn [o_dc o_ls o_a0] in *. rewrite Rplus_0_l in SC. rewrite <- SC. unfold K_STAR_lp. field. lra. }
  split; [exact EM|]. split; [exact N0|].
  assert (KK : k_a0M ko = exp (o_ls o) / K_STAR C).
  { rewrite EO. cbn [o_ls].
    assert (PK : 0 < k_a0M ko).
    { eapply k_a0M_pos with (me := match ca_method a with Some x => x | None => "Omega_K0" end); [exact HC|exact Hp|]. destruct EK' as [[M EK']|[M EK']]; rewrite M; exact EK'. }
    rewrite exp_ln by (apply Rmult_lt_0_compat; assumption). field. lra. }
  assert (OM : o_OmK o = k_OmK ko) by (rewrite EO; reflexivity). rewrite OM, <- KK.
  destruct EK' as [[M EK']|[M EK']].
  - unfold pure_Omega in EK'. destruct (ca_Omega_K0 a) as [om|]; [|discriminate]. destruct (Req_EM_T om 0) as [|NO]; [discriminate|].
    destruct (Req_EM_T (np_sign om) (- b_K b)) as [SG|]; [|discriminate].
    destruct (a0M_pos C b h HC Hp om NO SG) as [P1 P2].
    assert (X : k_OmK ko = om /\ k_a0M ko = a0M_of C h (b_K b) om) by (destruct (ca_rho_reh_GeV a); injection EK' as <-; split; reflexivity).
    destruct X as [-> ->]. split; [intros o' _ [= ->]; reflexivity|].
    unfold a0M_of. replace (c_light C / (h * 100 * 1000) * sqrt (- b_K b / om) * (h * 100 * 1000)) with (c_light C * sqrt (- b_K b / om)) by (field; lra).
    rewrite Rpow_mult_distr. rewrite <- Rsqr_pow2 with (x := sqrt _), Rsqr_sqrt by lra. field. split; [exact NO|]. split; lra.
  - unfold pure_curved_reheating in EK'. destruct (is_given (ca_Omega_K0 a)); [discriminate|]. destruct (bad_reheating a); [discriminate|].
    destruct (pure_curved_cases C a b) as [[[[[dm nr] dn] ww] rho]|]; [|discriminate]. cbn [bind] in EK'. injection EK' as <-. cbn [k_OmK k_a0M].
    split.
    + intros o' MM. exfalso. unfold method in MM. destruct (ca_method a); [congruence|]. discriminate M.
    + f_equal. ring.
Qed.

(** ** C44 *)
Lemma existsb_first x l : existsb (same_fl (Fin x)) (map Fin l) = true <-> In x l.
Proof.
  induction l as [|a l IH]; cbn [map existsb In]; [split; [discriminate|contradiction]|]. unfold same_fl at 1. cbn [feq isnan andb orb].
  destruct (Req_EM_T x a) as [->|N]; cbn [orb]; [split; auto|]. rewrite IH. split; [auto|intros [->|H]; [contradiction|exact H]].
Qed.
Lemma first_occ_select seen l m : List.length m = List.length l ->
  NoDup (select (zipw andb m (first_occ (map Fin seen) (map Fin l))) l) /\
  (forall x, In x (select (zipw andb m (first_occ (map Fin seen) (map Fin l))) l) -> ~ In x seen).
Proof.
  revert seen m; induction l as [|a l IH]; intros seen [|c m] L; try discriminate; cbn [map first_occ zipw select]; [split; [constructor|intros x []]|].
  destruct (IH (a :: seen) m ltac:(cbn in L; lia)) as [N F]. cbn [map] in N, F.
  destruct (existsb (same_fl (Fin a)) (map Fin seen)) eqn:EX; cbn [negb].
  - rewrite andb_false_r. split; [exact N|]. intros x I J. apply (F x I). right. exact J.
  - rewrite andb_true_r. destruct c.
    + split.
      * constructor; [|exact N]. intros I. apply (F a I). left. reflexivity.
      * intros x [<-|I] J; [apply existsb_first in J; congruence|]. apply (F x I). right. exact J.
    + split; [exact N|]. intros x I J. apply (F x I). right. exact J.
Qed.
(** first occurrences are kept *)
Lemma first_occ_complete seen l m i x : List.length m = List.length l -> nth_error l i = Some x -> nth_error m i = Some true ->
  (forall j y, (j < i)%nat -> nth_error l j = Some y -> y <> x) -> ~ In x seen ->
  nth_error (zipw andb m (first_occ (map Fin seen) (map Fin l))) i = Some true.
Proof.
  revert seen m i; induction l as [|a l IH]; intros seen [|c m] i L E M F NI; try discriminate; [destruct i; discriminate|].
  cbn [map first_occ zipw]. destruct i as [|i]; cbn [nth_error] in *.
  - injection E as ->. injection M as ->. destruct (existsb (same_fl (Fin x)) (map Fin seen)) eqn:EX; [apply existsb_first in EX; contradiction|]. reflexivity.
  - change (Fin a :: map Fin seen) with (map Fin (a :: seen)). apply IH; [cbn in L; lia|exact E|exact M| |].
    + intros j y J. apply (F (Datatypes.S j) y). lia.
    + intros [->|I]; [|contradiction]. apply (F 0%nat x); [lia|reflexivity|reflexivity].
Qed.
Lemma zipw_idem m f : List.length m = List.length f -> zipw andb (zipw andb m f) f = zipw andb m f.
Proof. revert f; induction m as [|c m IH]; intros [|d f] L; try discriminate; [reflexivity|]. cbn [zipw]. f_equal; [destruct c, d; reflexivity|]. apply IH. cbn in L; lia. Qed.

(** After calibration [logk] has no repeated entries, it is the sequence of log(aH) (shifted by a constant)
    at the samples of the new mask, the new mask is contained in the old one and keeps each sample of it whose
    value of aH did not occur before. *)
Theorem C44_no_duplicates : forall C S q a s b s' w,
  consts_ok C -> sane a -> background s b -> ca_background a = None -> calibrate_scale_factor C S q a s = (s', Ok w) ->
  exists mask lk c, dict_get "inflation_mask" s' = Some (VB mask) /\ arr s' "logk" lk /\ NoDup lk /\
    lk = map (fun x => x + c) (select mask (logaH b)) /\ List.length mask = List.length (b_N b) /\
    (forall i, nth_error mask i = Some true -> nth_error (b_mask b) i = Some true) /\
    (forall i x, nth_error (b_mask b) i = Some true -> nth_error (logaH b) i = Some x ->
       (forall j y, (j < i)%nat -> nth_error (logaH b) j = Some y -> y <> x) -> nth_error mask i = Some true).
Proof.
  intros C S q a s b s' w HC HA HB HN E.
  destruct (calibrate_result C S q a s b s' w HC HA HB HN E) as (o & EP & P & _).
  destruct P as ((_ & BG & _ & LK) & _). destruct BG as (_ & _ & _ & _ & BM & _). cbn [remask b_mask] in BM.
  assert (L1 : List.length (b_H b) = List.length (b_N b)) by apply HB. assert (L2 : List.length (b_mask b) = List.length (b_N b)) by apply HB.
  assert (L3 : List.length (logaH b) = List.length (b_N b)) by (apply logaH_length, L1).
  exists (umask b), (map (fun x => x + (ln (K_STAR C) - o_ls o)) (select (umask b) (logaH b))), (ln (K_STAR C) - o_ls o).
  split; [exact BM|]. split; [|split; [|split; [reflexivity|split; [|split]]]].
  - unfold arr in *. rewrite LK. do 3 f_equal. unfold maskedL. cbn [remask b_mask]. apply map_ext. intros x. ring.
  - apply FinFun.Injective_map_NoDup; [intros x y H; lra|]. apply (first_occ_select [] (logaH b) (b_mask b)). congruence.
  - unfold umask. rewrite zipw_length; rewrite first_occ_length, map_length; congruence.
  - intros i. unfold umask. generalize (first_occ [] (map Fin (logaH b))). generalize (b_mask b). clear. induction i as [|i IH]; intros [|c m] [|d f]; cbn [zipw nth_error]; try discriminate.
    + intros [= H]. apply andb_prop in H. destruct H as [-> _]. reflexivity.
    + apply IH.
  - intros i x M X F. unfold umask. apply (first_occ_complete [] (logaH b) (b_mask b) i x); [congruence|exact X|exact M|exact F|intros []].
Qed.
(** calibrating again does not change which samples are retained *)
Theorem C44_recalibration : forall C S q a s b s' w a' s'' w',
  consts_ok C -> sane a -> sane a' -> background s b -> ca_background a = None -> ca_background a' = None ->
  calibrate_scale_factor C S q a s = (s', Ok w) -> calibrate_scale_factor C S q a' s' = (s'', Ok w') ->
  dict_get "inflation_mask" s'' = dict_get "inflation_mask" s'.
Proof.
  intros C S q a s b s' w a' s'' w' HC HA HA' HB HN HN' E E'.
  destruct (calibrate_result C S q a s b s' w HC HA HB HN E) as (o & EP & P & _).
  destruct P as ((_ & BG & _) & _).
  destruct (calibrate_result C S q a' s' (remask b) s'' w' HC HA' BG HN' E') as (o' & _ & P' & _).
  destruct P' as ((_ & BG' & _) & _). destruct BG as (_ & _ & _ & _ & BM & _). destruct BG' as (_ & _ & _ & _ & BM' & _).
  rewrite BM, BM'. cbn [remask b_mask]. do 2 f_equal. unfold umask at 1. cbn [remask b_mask]. change (logaH (remask b)) with (logaH b). unfold umask. apply zipw_idem.
  rewrite first_occ_length, map_length. unfold logaH. rewrite logaH_length by apply HB. apply HB.
Qed.
Theorem C44_nonvacuous U : exists s' w s'' w',
  calibrate_scale_factor exC exS (mkaeqs AT 0 U) ex36 (exs 0) = (s', Ok w) /\ calibrate_scale_factor exC exS (mkaeqs AT 0 U) ex36 s' = (s'', Ok w').
Proof.
  destruct ex36_pure as (o & EP & EL). assert (SN : sane ex36) by (split; cbn; [lra|discriminate]).
  destruct (calibrate_succeeds exC exS (mkaeqs AT 0 U) ex36 (exs 0) (exb 0) o _ _ 3%nat exC_ok SN (exs_bg 0) eq_refl EP (exs_fields 0) ltac:(cbn; lia) exS_ok eq_refl eq_refl ltac:(lia)) as (s' & w & E & P & F).
  assert (RB : remask (exb 0) = exb 0) by (unfold remask; rewrite exb_umask; reflexivity).
  assert (B' : background s' (exb 0)) by (rewrite <- RB; apply P).
  destruct (calibrate_succeeds exC exS (mkaeqs AT 0 U) ex36 s' (exb 0) o _ _ 3%nat exC_ok SN B' eq_refl EP F ltac:(cbn; lia) exS_ok eq_refl eq_refl ltac:(lia)) as (s'' & w' & E' & _).
  exists s', w, s'', w'. auto.
Qed.

(** ** C45 *)
(** the keyword is given with value v / with another value *)
Definition is_val (o : option R) (v : R) := o = Some v.
Definition is_other (o : option R) (v : R) := exists x, o = Some x /\ x <> v.
Theorem C45_instant_reheating : forall N_star rho w dn dm,
  let some_instant := is_val w (1/3) \/ is_val dn 0 \/ is_val dm 0 in
  let none_given := rho = None /\ w = None /\ dn = None /\ dm = None in
  let contradiction := is_other w (1/3) \/ is_other dn 0 \/ is_other dm 0 \/ rho <> None in
  (is_instant_reheating N_star rho w dn dm = Ok true <-> N_star = None /\ (none_given \/ some_instant) /\ ~ contradiction) /\
  (is_instant_reheating N_star rho w dn dm = Raise ValueError <-> N_star = None /\ some_instant /\ contradiction) /\
  (is_instant_reheating N_star rho w dn dm = Ok false <-> N_star <> None \/ ~ (none_given \/ some_instant)) /\
  (forall e, is_instant_reheating N_star rho w dn dm = Raise e -> e = ValueError).
Proof.
  intros N_star rho w dn dm. cbv zeta. unfold is_instant_reheating, is_val, is_other.
  assert (GE : forall o v, given_eq o v = true <-> o = Some v).
  { intros [x|] v; cbn; [|split; discriminate]. destruct (Req_EM_T x v) as [->|N]; split; auto; [discriminate|]. intros [= ->]. contradiction. }
  assert (GN : forall o v, given_ne o v = true <-> exists x, o = Some x /\ x <> v).
  { intros [x|] v; cbn; [|split; [discriminate|intros (y & H & _); discriminate]]. destruct (Req_EM_T x v) as [->|N]; split; auto; [discriminate| |eauto]. intros (y & [= <-] & H). contradiction. }
  assert (NO : forall (A : Type) (o : option A), is_none o = true <-> o = None) by (intros A [x|]; cbn; split; auto; discriminate).
  assert (NS : forall (A : Type) (o : option A), negb (is_none o) = true <-> o <> None) by (intros A [x|]; cbn; split; auto; try discriminate; intros H; exfalso; apply H; reflexivity).
  destruct (negb (is_none N_star)) eqn:E1.
  { apply NS in E1. split; [|split; [|split; [|intros e; discriminate]]]; split; try discriminate; try tauto; intros (H & _); contradiction. }
  assert (EN : N_star = None) by (destruct N_star; [discriminate|reflexivity]). 
  set (A := (is_none rho && is_none w && is_none dn && is_none dm || given_eq w (1/3) || given_eq dn 0 || given_eq dm 0)%bool).
  set (B := (given_ne w (1/3) || given_ne dn 0 || given_ne dm 0 || negb (is_none rho))%bool).
  assert (HA : A = true <-> (rho = None /\ w = None /\ dn = None /\ dm = None) \/ w = Some (1/3) \/ dn = Some 0 \/ dm = Some 0).
  { unfold A. rewrite !orb_true_iff, !andb_true_iff, !GE, !NO. tauto. }
  assert (HB : B = true <-> (exists x, w = Some x /\ x <> 1/3) \/ (exists x, dn = Some x /\ x <> 0) \/ (exists x, dm = Some x /\ x <> 0) \/ rho <> None).
  { unfold B. rewrite !orb_true_iff, !GN, !NS. tauto. }
  assert (HN : (rho = None /\ w = None /\ dn = None /\ dm = None) -> B = true -> False).
  { intros (-> & -> & -> & ->) H. discriminate H. }
  destruct A, B.
  - assert (P : true = true) by reflexivity. apply HA in P as PA. apply HB in P as PB. clear HA HB GE GN NO NS.
    split; [|split; [|split; [|intros e [= <-]; reflexivity]]]; split; try discriminate; try tauto. 
  - assert (P : true = true) by reflexivity. apply HA in P as PA. assert (NB : ~ (false = true)) by discriminate. rewrite HB in NB. clear HA HB GE GN NO NS.
    split; [|split; [|split; [|intros e; discriminate]]]; split; try discriminate; try tauto.
  - assert (NA : ~ (false = true)) by discriminate. rewrite HA in NA. clear HA HB GE GN NO NS.
    split; [|split; [|split; [|intros e; discriminate]]]; split; try discriminate; try tauto.
  - assert (NA : ~ (false = true)) by discriminate. rewrite HA in NA. clear HA HB GE GN NO NS.
    split; [|split; [|split; [|intros e; discriminate]]]; split; try discriminate; try tauto.
Qed.
