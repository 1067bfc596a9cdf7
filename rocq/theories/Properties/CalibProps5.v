(** Calibration copied from an earlier background (keyword [background]): property C37, continued;
    objects returned by solve satisfy the hypotheses of the calibration properties. *)
From Coq Require Import Reals List String ZArith Bool Lra Lia.
From Verif Require Import Base Model.Equations Model.Background Model.Float Model.Solution Model.Interp Model.State Model.Reheating
  Model.ApproxPower Model.Calibrate Spec.SolutionSpec Spec.CalibSpec Proofs.BaseLemmas Proofs.FloatLemmas Proofs.DictLemmas Proofs.StateLemmas Proofs.SolLemmas Proofs.PostProc Proofs.CalibFrame
  Proofs.CalibPure Proofs.CalibPure2 Proofs.CalibPure3 Proofs.CalibRun Proofs.PowerRun Proofs.CalibResult Proofs.CalibTotal Properties.SolutionProps Properties.CalibProps.
Import ListNotations.
Open Scope R_scope.
Open Scope string_scope.

(** ** solve produces such backgrounds *)
(** the samples, start and end of a solution with positive H and V *)
Definition bg_of (q : eqs) (r : raw_sol) (xb : R) (yb : list R) (xe : R) (ye : list R) : bg :=
  let N := zipw (e_N q) (r_t r) (r_y r) in
  mkbg (e_K q) N (map sqrt (zipw (e_H2 q) (r_t r) (r_y r)))
    (map (fun n => if Rlt_dec (e_N q xb yb) n then if Rlt_dec n (e_N q xe ye) then true else false else false) N)
    (e_N q xb yb) (e_N q xe ye) (sqrt (e_H2 q xb yb)) (sqrt (e_H2 q xe ye)) (e_V q (e_phi q xe ye)).
(** inflation starts at (xb, yb): at the first sample if that inflates, else at the first InflationEvent *)
Definition starts_at (q : eqs) (events : list event) (r : raw_sol) (xb : R) (yb : list R) : Prop :=
  recorded is_collapse events r = [] /\
  exists x0 xs y0 ys, r_t r = x0 :: xs /\ r_y r = y0 :: ys /\
    ((inflates_at q x0 y0 /\ xb = x0 /\ yb = y0) \/ (~ inflates_at q x0 y0 /\ exists rest, recorded (is_inflation 1 false) events r = (xb, yb) :: rest)).
Definition ends_at (events : list event) (r : raw_sol) (xe : R) (ye : list R) : Prop :=
  exists rest, recorded (is_inflation (-1) true) events r = (xe, ye) :: rest \/
    (recorded (is_inflation (-1) true) events r = [] /\ recorded (is_inflation (-1) false) events r = (xe, ye) :: rest).

Lemma zipw_len2 {A B D} (f : A -> B -> D) l m : List.length l = List.length m -> List.length (zipw f l m) = List.length l.
Proof. revert m; induction l as [|x l IH]; intros [|c m]; simpl; try discriminate; auto. Qed.
Theorem solved_background : forall q events r s xb yb xe ye,
  solved q events r s -> List.length (r_t r) = List.length (r_y r) -> starts_at q events r xb yb -> ends_at events r xe ye ->
  Forall (fun h => 0 < h) (zipw (e_H2 q) (r_t r) (r_y r)) -> 0 < e_H2 q xb yb -> 0 < e_H2 q xe ye -> 0 < e_V q (e_phi q xe ye) ->
  background s (bg_of q r xb yb xe ye).
Proof.
  intros q events r s xb yb xe ye S L HS HE HH Hb He HV.
  assert (NB : N_beg_of q events r = (Fin (e_N q xb yb), Fin (sqrt (e_H2 q xb yb)))).
  { unfold N_beg_of. destruct HS as (-> & x0 & xs & y0 & ys & E1 & E2 & HS). rewrite E1, E2.
    rewrite <- (fsqrt_fin (e_H2 q xb yb)) by lra. fold (e_H q xb yb).
    destruct HS as [(I & -> & ->)|(I & rest & E)].
    - apply inflates_dec in I. rewrite I. reflexivity.
    - rewrite <- inflates_dec in I. apply not_true_is_false in I. rewrite I, E. reflexivity. }
  assert (NE : N_end_of q events r = (Fin (e_N q xe ye), Fin (e_phi q xe ye), Fin (sqrt (e_H2 q xe ye)), Fin (e_V q (e_phi q xe ye)))).
  { unfold N_end_of, end_record. rewrite <- (fsqrt_fin (e_H2 q xe ye)) by lra. fold (e_H q xe ye). destruct HE as (rest & [E|[E E']]); rewrite E, ?E'; reflexivity. }
  unfold solved in S. cbv zeta in S. rewrite NB, NE in S. cbn [fst snd isfinite andb] in S.
  destruct S as (S1 & S2 & S3 & S4 & S5 & S6 & S7 & S8 & S9 & S10 & S11 & S12 & S13 & S14 & S15).
  assert (Pb : 0 < sqrt (e_H2 q xb yb)) by (apply sqrt_lt_R0; assumption). assert (Pe : 0 < sqrt (e_H2 q xe ye)) by (apply sqrt_lt_R0; assumption).
  rewrite flog_fin in S3, S8 by assumption. cbn [fadd fsub] in S3, S8, S9.
  assert (EH : map (fun h => fsqrt (Fin h)) (zipw (e_H2 q) (r_t r) (r_y r)) = map Fin (map sqrt (zipw (e_H2 q) (r_t r) (r_y r)))).
  { rewrite map_map. apply map_ext_in. intros h I. rewrite Forall_forall in HH. apply fsqrt_fin. left. apply HH, I. }
  rewrite EH in S12, S13.
  assert (FP : Forall (fun h => 0 < h) (map sqrt (zipw (e_H2 q) (r_t r) (r_y r)))).
  { apply Forall_forall. intros h I. apply in_map_iff in I. destruct I as (h' & <- & I). rewrite Forall_forall in HH. apply sqrt_lt_R0, HH, I. }
  assert (EL : forall N H, Forall (fun h => 0 < h) H -> zipw (fun n h => fadd n (flog h)) (map Fin N) (map Fin H) = map Fin (logaH_of N H)).
  { induction N as [|n N IH]; intros [|h H] F; try reflexivity. inversion F; subst. cbn [map zipw logaH_of]. rewrite flog_fin by assumption. cbn [fadd]. f_equal. apply IH; assumption. }
  rewrite EL in S13 by exact FP.
  unfold background, bg_of, scal, arr, logaH. cbn [b_K b_N b_H b_mask b_beg b_end b_Hbeg b_Hend b_Vend].
  split; [exact S10|]. split; [exact S11|]. split; [exact S12|]. split; [exact S13|].
  split. { rewrite S15. do 2 f_equal. rewrite !map_map. apply map_ext. intros n. cbn [flt].
    destruct (Rlt_dec (e_N q xb yb) n), (Rlt_dec n (e_N q xe ye)); reflexivity. }
  split; [exact S1|]. split; [exact S4|]. split; [exact S9|]. split; [exact S6|]. split; [exact S7|]. split; [exact S3|]. split; [exact S8|].
  split; [rewrite map_length, !zipw_len2 by exact L; reflexivity|]. split; [apply map_length|]. split; [exact FP|]. do 3 (split; [assumption|]).
  generalize (map sqrt (zipw (e_H2 q) (r_t r) (r_y r))). generalize (zipw (e_N q) (r_t r) (r_y r)). clear.
  induction l as [|n N IH]; intros [|h H]; try constructor. cbn [map used].
  destruct (Rlt_dec (e_N q xb yb) n); [destruct (Rlt_dec n (e_N q xe ye))|]; try apply IH. constructor; [cbn; lra|apply IH].
Qed.

(** C37 from the initial value problem on: what solve returns for a run with a start and an end of inflation
    can be calibrated, and the bookkeeping holds. *)
Theorem C37_after_solve : forall fmt_e q verbose events r xb yb xe ye s ws C S qa a s' w,
  inflation_eqs q -> NoDup (map (event_name fmt_e) events) -> ivp_ok (List.length (e_idx q)) (List.length events) r ->
  solve fmt_e q verbose events r = Ok (s, ws) -> starts_at q events r xb yb -> ends_at events r xe ye ->
  Forall (fun h => 0 < h) (zipw (e_H2 q) (r_t r) (r_y r)) -> 0 < e_H2 q xb yb -> 0 < e_H2 q xe ye -> 0 < e_V q (e_phi q xe ye) ->
  consts_ok C -> sane a -> ca_background a = None -> calibrate_scale_factor C S qa a s = (s', Ok w) ->
  exists N_star N_dagg, scal s' "N_star" N_star /\ scal s' "N_dagg" N_dagg /\ N_star + N_dagg = e_N q xe ye - e_N q xb yb /\
    scal s' "N_tot" (e_N q xe ye - e_N q xb yb) /\
    exists d, scal s' "N_beg" (e_N q xb yb + d) /\ scal s' "N_end" (e_N q xe ye + d) /\ arr s' "N" (map (fun n => n + d) (zipw (e_N q) (r_t r) (r_y r))).
Proof.
  intros fmt_e q verbose events r xb yb xe ye s ws C S qa a s' w Hq ND IV ES HS HE HH Hb He HV HC HA HN E.
  destruct (solve_ok fmt_e q verbose events r Hq ND IV) as (s0 & E0 & SO). rewrite ES in E0. injection E0 as <- _.
  pose proof (solved_background q events r s xb yb xe ye SO (proj1 (proj2 IV)) HS HE HH Hb He HV) as HB.
  destruct (calibrate_result C S qa a s _ s' w HC HA HB HN E) as (o & EP & P & _). apply pure_ns in EP.
  destruct P as (((P1 & P2 & P3 & P4 & _) & BG & _) & Q1 & Q2 & Q3 & Q4 & Q5 & Q6 & _).
  destruct BG as (_ & _ & _ & _ & _ & _ & _ & BT & _). cbn in BT, EP, Q1, Q2, Q3, Q6.
  do 2 eexists. split; [exact P4|]. split; [exact Q6|]. split; [lra|]. split; [exact BT|]. exists (o_dc o). auto.
Qed.
Theorem C37_after_solve_nonvacuous : let q := T_eqs 0 U0 false in
  ivp_ok 3 2 ex_raw /\ starts_at q ex_events ex_raw 0 [5; -1; 0] /\ ends_at ex_events ex_raw (1/2) [9/2; -1; 1] /\
  Forall (fun h => 0 < h) (zipw (e_H2 q) (r_t ex_raw) (r_y ex_raw)) /\ 0 < e_H2 q 0 [5; -1; 0] /\ 0 < e_H2 q (1/2) [9/2; -1; 1] /\ 0 < e_V q (e_phi q (1/2) [9/2; -1; 1]).
Proof.
  cbv zeta. split; [exact (proj2 (C23_nonvacuous (fun _ => "")))|].
  assert (HP : forall x p n, 0 < e_H2 (T_eqs 0 U0 false) x [p; -1; n]).
  { intros. unfold T_eqs, e_H2, T_H2, T_get_H2. cbn. lra. }
  split; [|split; [|split; [|split; [apply HP|split; [apply HP|cbn; lra]]]]].
  - split; [reflexivity|]. exists 0, [1], [5; -1; 0], [[4; -1; 2]]. split; [reflexivity|]. split; [reflexivity|]. left. split; [|split; reflexivity]. left. unfold T_eqs, e_inflating, T_inflating. cbn. lra.
  - exists []. left. reflexivity.
  - repeat constructor; apply HP.
Qed.

(** ** C75: a copied calibration *)
(** [g] is an object whose calibration is copied: the numbers that are read from it *)
Definition calibrator (g : attrs) (dc ls nc ne ns : R) : Prop :=
  scal g "delta_N_calib" dc /\ scal g "_logaH_star" ls /\ scal g "_N_cross" nc /\ scal g "_N_end" ne /\ scal g "N_star" ns /\
  (exists nr, dict_get "_N_reh" g = Some (VF nr)) /\ nc = ne - ns.
Lemma run_copy {B} g k v (f : unit -> M B) s : dict_get k g = Some v -> bindM (copy g k) f s = f tt (setattr k v s).
Proof. intros E. unfold copy. rewrite run_bind_bind. unfold getattr. rewrite E, run_bind_lift, run_bind_setM. reflexivity. Qed.

Lemma override_run C S q a s b g dc ls nc ne ns : consts_ok C -> background s b -> a_K q = 0 -> ca_background a = Some g ->
  calibrator g dc ls nc ne ns -> 0 < ns -> ca_N_star a = Some ns -> (ca_Omega_K0 a = None \/ ca_Omega_K0 a = Some 0) ->
  exists s', calibrate_scale_factor C S q a s = (s', Ok []) /\
    scal s' "N_star" ns /\ scal s' "N_beg" (b_beg b + dc) /\ scal s' "N_end" (ne + dc) /\ scal s' "N_cross" (nc + dc) /\
    scal s' "N_dagg" (nc + dc - (b_beg b + dc)) /\ scal s' "N_tot" (b_end b - b_beg b) /\ scal s' "delta_N_calib" dc /\
    arr s' "N" (map (fun n => n + dc) (b_N b)) /\
    arr s' "logk" (map (fun x => x + ln (K_STAR C) - ls) (maskedL (remask b))) /\
    arr s' "k_iMpc" (map exp (map (fun x => x + ln (K_STAR C) - ls) (maskedL (remask b)))).
Proof.
  intros HC HB EK EB (G1 & G2 & G3 & G4 & G5 & (nr & G6) & G7) Hns EN EO.
  assert (HK : 0 < K_STAR C) by apply HC. pose proof HB as (BK & BN & BH & BL & BM & Bb & Be & Bt & BHe & BV & Blb & Ble & L1 & L2 & FH & _ & PHe & PV & _).
  unfold calibrate_scale_factor. destruct (Req_EM_T (a_K q) 0) as [_|]; [|contradiction].
  assert (FL : exists s1, calibrate_flat C a s = (s1, Ok tt) /\
     (forall k, ~ In k ["a0"; "N0"; "Omega_K0"; "delta_N_calib"; "_logaH_star"; "_N_cross"; "_N_reh"; "_N_end"; "N_star"; "a0_Mpc"; "inflation_mask"; "logk"] -> dict_get k s1 = dict_get k s) /\
     scal s1 "a0" 1 /\ scal s1 "delta_N_calib" dc /\ scal s1 "_N_cross" nc /\ dict_get "_N_reh" s1 = Some (VF nr) /\ scal s1 "_N_end" ne /\ scal s1 "N_star" ns /\
     dict_get "inflation_mask" s1 = Some (VB (umask b)) /\ arr s1 "logk" (map (fun x => x + ln (K_STAR C) - ls) (maskedL (remask b)))).
  { unfold calibrate_flat. 
    assert (X : forall (f : unit -> M unit) st, bindM (match ca_Omega_K0 a with Some o => if Req_EM_T o 0 then retM tt else raiseM ValueError | None => retM tt end) f st = f tt st).
    { intros f st. destruct EO as [-> | ->]; [apply run_bind_ret|]. destruct (Req_EM_T 0 0); [apply run_bind_ret|lra]. }
    rewrite X. rewrite !run_bind_setF. rewrite EB. unfold flat_background. rewrite EN. destruct (Rle_dec ns 0); [lra|].
    rewrite run_bind_bind. unfold get_F, getattr at 1. rewrite G5. cbn [bind as_F]. rewrite run_bind_lift. cbn [feq]. destruct (Req_EM_T ns ns); [|contradiction].
    rewrite !run_bind_bind. rewrite (run_copy _ _ _ _ _ G1). rewrite !run_bind_bind. rewrite (run_copy _ _ _ _ _ G2).
    rewrite !run_bind_bind. rewrite (run_copy _ _ _ _ _ G3). rewrite !run_bind_bind. rewrite (run_copy _ _ _ _ _ G6). rewrite !run_bind_bind. rewrite (run_copy _ _ _ _ _ G4). rewrite (run_copy _ _ _ _ _ G5).
    unfold flat_finish. erewrite run_bind_getF by rd. cbn [fexp]. rewrite fdiv_fin by lra. rewrite run_bind_setF. unfold arr in *. erewrite run_bind_getA by rd.
    rewrite flog_fin by exact HK. rewrite map_map. cbn [fadd fsub].
    unfold set_logk. erewrite run_bind_getB by rd.
    assert (E : zipw andb (b_mask b) (first_occ [] (map (fun x => Fin (x + ln (K_STAR C) - ls)) (logaH b))) = umask b).
    { unfold umask. f_equal. exact (first_occ_inj (fun x => x + ln (K_STAR C) - ls) (logaH b) ltac:(intros; split; lra) []). }
    rewrite E. rewrite run_bind_setM. erewrite run_bind_getB by rd.
    replace (select (umask b) (map (fun x => Fin (x + ln (K_STAR C) - ls)) (logaH b))) with (map Fin (map (fun x => x + ln (K_STAR C) - ls) (select (umask b) (logaH b))))
      by (rewrite map_map, <- select_map; reflexivity).
    eexists. split; [reflexivity|]. split.
    { intros k N. unfold setattr. rewrite !get_set_neq; [reflexivity|..]; intros ->; apply N; inl. }
    unfold scal. unfold maskedL. cbn [remask b_mask]. change (logaH (remask b)) with (logaH b).
    repeat split; unfold setattr; repeat first [rewrite get_set_eq | rewrite get_set_neq by discriminate]; reflexivity. }
  destruct FL as (s1 & E1 & F & A0 & A1 & A2 & A3 & A4 & A5 & A6 & A7).
  rewrite (run_bind_step _ _ _ _ _ E1). unfold calibrate_common. rewrite EB. rewrite !run_bind_bind.
  unfold scal, arr in *.
  assert (FN : dict_get "_N" s1 = Some (VA (map Fin (b_N b)))) by (rewrite F by ni; exact BN).
  assert (FB : dict_get "_N_beg" s1 = Some (VF (Fin (b_beg b)))) by (rewrite F by ni; exact Bb).
  assert (FL : dict_get "_logaH" s1 = Some (VA (map Fin (logaH b)))) by (rewrite F by ni; exact BL).
  assert (FHH : dict_get "H" s1 = Some (VA (map Fin (b_H b)))) by (rewrite F by ni; exact BH).
  assert (FHe : dict_get "H_end" s1 = Some (VF (Fin (b_Hend b)))) by (rewrite F by ni; exact BHe).
  assert (FT : dict_get "N_tot" s1 = Some (VF (Fin (b_end b - b_beg b)))) by (rewrite F by ni; exact Bt).
  Ltac st := rewrite ?run_bind_bind; first [erewrite run_bind_getF by rd | erewrite run_bind_getA by rd | erewrite run_bind_getB by rd | rewrite run_bind_setF | rewrite run_bind_setM | rewrite run_bind_ret].
  repeat st. cbn [retM].
  eexists. split; [reflexivity|]. cbn [fadd fsub]. rewrite !map_map.
  repeat split; unfold setattr; repeat first [rewrite get_set_eq | rewrite get_set_neq by discriminate]; first [reflexivity|assumption|rewrite A7, map_map; reflexivity].
Qed.
(** N_star + N_dagg = N_end - N_beg and N_cross = N_end - N_star also after copying; but N_tot is not
    updated. *)
Theorem C75_copied_partial : forall C S q a s b g dc ls nc ne ns s' w, consts_ok C -> background s b -> a_K q = 0 -> ca_background a = Some g ->
  calibrator g dc ls nc ne ns -> 0 < ns -> ca_N_star a = Some ns -> (ca_Omega_K0 a = None \/ ca_Omega_K0 a = Some 0) ->
  calibrate_scale_factor C S q a s = (s', Ok w) ->
  exists N_star N_dagg N_beg N_end N_cross,
    scal s' "N_star" N_star /\ scal s' "N_dagg" N_dagg /\ scal s' "N_beg" N_beg /\ scal s' "N_end" N_end /\ scal s' "N_cross" N_cross /\
    N_star + N_dagg = N_end - N_beg /\ N_cross = N_end - N_star /\ scal s' "N_tot" (b_end b - b_beg b) /\ N_end - N_beg = ne - b_beg b.
Proof.
  intros C S q a s b g dc ls nc ne ns s' w HC HB EK EB G Hns EN EO E.
  destruct (override_run C S q a s b g dc ls nc ne ns HC HB EK EB G Hns EN EO) as (s1 & E1 & A1 & A2 & A3 & A4 & A5 & A6 & _).
  rewrite E1 in E. injection E as <- <-. destruct G as (_ & _ & _ & _ & _ & _ & GN).
  do 5 eexists. do 5 (split; [eassumption|]). split; [lra|]. split; [lra|]. split; [exact A6|lra].
Qed.
(** the copied end of inflation need not be the object's own: then N_star + N_dagg <> N_tot *)
Definition exg : attrs := [("delta_N_calib", VF (Fin 0)); ("_logaH_star", VF (Fin 2)); ("_N_cross", VF (Fin 2)); ("_N_end", VF (Fin 5)); ("N_star", VF (Fin 3)); ("_N_reh", VF NaN)].
Definition ex_copy : calargs := mkargs None None None (Some 3) (Some exg) None None None 100 None "CGS" (Some 3%Z) default_opts.
Theorem C75_copied_refuted : exists C S q a s b g s' w N_star N_dagg N_tot,
  consts_ok C /\ sane a /\ background s b /\ ca_background a = Some g /\ calibrator g 0 2 2 5 3 /\
  calibrate_scale_factor C S q a s = (s', Ok w) /\ scal s' "N_star" N_star /\ scal s' "N_dagg" N_dagg /\ scal s' "N_tot" N_tot /\ N_star + N_dagg <> N_tot.
Proof.
  assert (G : calibrator exg 0 2 2 5 3) by (repeat split; [exists NaN; reflexivity|lra]).
  destruct (override_run exC exS (mkaeqs AT 0 (mkpotfun (fun _ => 1) (fun _ => 0) (fun _ => 0) (fun _ => 0))) ex_copy (exs 0) (exb 0) exg 0 2 2 5 3 exC_ok (exs_bg 0) eq_refl eq_refl G ltac:(lra) eq_refl (or_introl eq_refl))
    as (s' & E & A1 & _ & _ & _ & A5 & A6 & _).
  exists exC, exS, (mkaeqs AT 0 (mkpotfun (fun _ => 1) (fun _ => 0) (fun _ => 0) (fun _ => 0))), ex_copy, (exs 0), (exb 0), exg, s'. do 4 eexists. split; [exact exC_ok|]. split; [split; cbn; [lra|discriminate]|]. split; [apply exs_bg|]. split; [reflexivity|]. split; [exact G|]. split; [exact E|].
  split; [exact A1|]. split; [exact A5|]. split; [exact A6|]. cbn. lra.
Qed.
(** The purpose of the keyword, an integration that does not see the end of inflation, fails: without a
    finite end of inflation there is no inflation_mask. *)
Theorem C75_copied_without_end : forall C S q a s g dc ls nc ne ns K L, consts_ok C -> a_K q = 0 -> ca_background a = Some g ->
  calibrator g dc ls nc ne ns -> 0 < ns -> ca_N_star a = Some ns -> (ca_Omega_K0 a = None \/ ca_Omega_K0 a = Some 0) ->
  scal s "K" K -> arr s "_logaH" L -> dict_get "inflation_mask" s = None ->
  snd (calibrate_scale_factor C S q a s) = Raise AttributeError.
Proof.
  intros C S q a s g dc ls nc ne ns K L HC EK EB (G1 & G2 & G3 & G4 & G5 & (nr & G6) & G7) Hns EN EO BK BL BM. assert (HK : 0 < K_STAR C) by apply HC.
  unfold calibrate_scale_factor. destruct (Req_EM_T (a_K q) 0) as [_|]; [|contradiction]. rewrite run_bind_bind || idtac. unfold calibrate_flat. rewrite !run_bind_bind.
    assert (X : forall A (f : unit -> M A) st, bindM (match ca_Omega_K0 a with Some o => if Req_EM_T o 0 then retM tt else raiseM ValueError | None => retM tt end) f st = f tt st).
    { intros A f st. destruct EO as [-> | ->]; [apply run_bind_ret|]. destruct (Req_EM_T 0 0); [apply run_bind_ret|lra]. }
    rewrite X. rewrite ?run_bind_bind. rewrite run_bind_setF, ?run_bind_bind, run_bind_setF, ?run_bind_bind, run_bind_setF, ?run_bind_bind. rewrite EB. unfold flat_background. rewrite EN. destruct (Rle_dec ns 0); [lra|].
    rewrite run_bind_bind. unfold get_F, getattr at 1. rewrite G5. cbn [bind as_F]. rewrite run_bind_lift. cbn [feq]. destruct (Req_EM_T ns ns); [|contradiction].
    rewrite ?run_bind_bind. rewrite (run_copy _ _ _ _ _ G1). rewrite !run_bind_bind. rewrite (run_copy _ _ _ _ _ G2).
    rewrite !run_bind_bind. rewrite (run_copy _ _ _ _ _ G3). rewrite !run_bind_bind. rewrite (run_copy _ _ _ _ _ G6). rewrite !run_bind_bind. rewrite (run_copy _ _ _ _ _ G4). rewrite (run_copy _ _ _ _ _ G5).
    unfold flat_finish. rewrite ?run_bind_bind. erewrite run_bind_getF by rd. cbn [fexp]. rewrite fdiv_fin by lra. rewrite ?run_bind_bind. rewrite run_bind_setF. unfold arr in *. rewrite ?run_bind_bind. erewrite run_bind_getA by rd.
    unfold set_logk. rewrite ?run_bind_bind. unfold bindM at 1. unfold getB, get_B, getattr, setattr. rewrite !get_set_neq by discriminate. rewrite BM. reflexivity.
Qed.
Theorem C75_copied_without_end_nonvacuous : calibrator exg 0 2 2 5 3 /\ ca_background ex_copy = Some exg /\ ca_N_star ex_copy = Some 3.
Proof. repeat split; [exists NaN; reflexivity|lra]. Qed.
