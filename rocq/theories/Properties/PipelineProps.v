(** End-to-end statements about solve() followed by calibrate_scale_factor(): C43 and C86 composed with the solver. *)
From Coq Require Import Reals List String ZArith Bool Lra Lia Classical.
From Verif Require Import Base Model.Equations Model.Background Model.Float Model.Solution Model.Interp Model.State Model.Reheating
  Model.ApproxPower Model.Calibrate Model.InitCond Model.BigBang Model.Shooting
  Spec.SolutionSpec Spec.CalibSpec Spec.CalibErrorSpec Spec.BigBangSpec
  Proofs.BaseLemmas Proofs.FloatLemmas Proofs.DictLemmas Proofs.StateLemmas Proofs.SolLemmas Proofs.PostProc Proofs.SolveFields
  Proofs.CalibFrame Proofs.CalibPure Proofs.CalibPure2 Proofs.CalibPure3 Proofs.CalibRun Proofs.PowerRun Proofs.CalibResult Proofs.CalibTotal Proofs.CalibErrors
  Properties.CalibProps Properties.CalibProps4 Properties.CalibProps5 Properties.BigBangProps Properties.InitProps Properties.ShootProps.
Import ListNotations.
Open Scope R_scope.
Open Scope string_scope.

(** what an equations object means to the calibration *)
Definition same_equations (q : eqs) (a : aeqs) : Prop :=
  (exists K U te, q = T_eqs K U te /\ a = mkaeqs AT K U) \/ (exists K U tm te, q = N_eqs K U tm te /\ a = mkaeqs AN K U).

(** the field and velocity samples the power spectrum code reads are the ones of the run *)
Theorem C23_field_samples : forall fmt_e q verbose events r s ws, inflation_eqs q -> NoDup (map (event_name fmt_e) events) ->
  ivp_ok (List.length (e_idx q)) (List.length events) r -> solve fmt_e q verbose events r = Ok (s, ws) ->
  fields s (map (fun y => nth 0 y 0) (r_y r)) (map (fun y => nth 1 y 0) (r_y r)).
Proof.
  intros fmt_e q verbose events r s ws Hq ND IV E. destruct (solve_state fmt_e q verbose events r s ws Hq ND IV E) as (A & B & D).
  assert (E0 : nth_error (map fst (e_idx q)) 0 = Some "phi") by (destruct Hq as [(K & U & te & ->)|(K & U & tm & te & ->)]; [destruct te|destruct tm, te]; reflexivity).
  unfold fields, arr. split; [exact (A _ _ E0)|].
  destruct Hq as [(K & U & te & ->)|(K & U & tm & te & ->)].
  - assert (E1 : nth_error (map fst (e_idx (T_eqs K U te))) 1 = Some "dphidt") by (destruct te; reflexivity).
    assert (HK : has_key "dphidt" s = true) by (unfold has_key; rewrite (A _ _ E1); reflexivity). rewrite HK. exact (A _ _ E1).
  - assert (E1 : nth_error (map fst (e_idx (N_eqs K U tm te))) 1 = Some "dphidN") by (destruct tm, te; reflexivity).
    assert (HK : has_key "dphidt" s = false).
    2:{ rewrite HK. exact (A _ _ E1). }
    unfold has_key. rewrite D; [reflexivity|..].
    + cbn; intros X; repeat (destruct X as [X|X]; [discriminate X|]); exact X.
    + destruct tm, te; cbn; intros X; repeat (destruct X as [X|X]; [discriminate X|]); exact X.
    + intros c X. apply suffix_len in X. cbn in X. lia.
    + cbn; intros X; repeat (destruct X as [X|X]; [discriminate X|]); exact X.
Qed.

(** solve() then calibrate_scale_factor(): for a run with a start and an end of inflation the calibration raises exactly
    in the rejected cases, with the exception of its class; otherwise it succeeds *)
Theorem C43_after_solve : forall fmt_e q qa verbose events r xb yb xe ye s ws C S a n e,
  same_equations q qa -> NoDup (map (event_name fmt_e) events) -> ivp_ok (List.length (e_idx q)) (List.length events) r ->
  solve fmt_e q verbose events r = Ok (s, ws) -> starts_at q events r xb yb -> ends_at events r xe ye ->
  Forall (fun h => 0 < h) (zipw (e_H2 q) (r_t r) (r_y r)) -> 0 < e_H2 q xb yb -> 0 < e_H2 q xe ye -> 0 < e_V q (e_phi q xe ye) ->
  (a_K qa = 0 \/ a_K qa = 1 \/ a_K qa = -1) ->
  consts_ok C -> sane a -> ca_background a = None -> (3 <= o_k (ca_opts a))%nat -> accepting S ->
  ca_approx a = "CGS" -> ca_order a = Some (Z.of_nat n) -> (n <= 3)%nat ->
  (snd (calibrate_scale_factor C S qa a s) = Raise e <-> reject C a (bg_of q r xb yb xe ye) e).
Proof.
  intros fmt_e q qa verbose events r xb yb xe ye s ws C S a n e HQ ND IV ES HS HE HH Hb He HV HK HC HA HN H3 AC EA EO Hn.
  assert (Hq : inflation_eqs q /\ e_K q = a_K qa).
  { destruct HQ as [(K & U & te & -> & ->)|(K & U & tm & te & -> & ->)]; split; try reflexivity; [left|right]; repeat eexists. }
  destruct Hq as [Hq EK].
  destruct (solve_ok fmt_e q verbose events r Hq ND IV) as (s0 & E0 & SO). rewrite ES in E0. injection E0 as <- _.
  pose proof (solved_background q events r s xb yb xe ye SO (proj1 (proj2 IV)) HS HE HH Hb He HV) as HB.
  eapply C43_exact with (n := n); try eassumption.
  - cbn. symmetry. exact EK.
  - cbn. rewrite EK. exact HK.
  - eapply C23_field_samples; eassumption.
Qed.

(** ** C86: the scale factor today the objective stops at is the one the calibration finds *)
Theorem C86_scale : forall F euler z3 S q N_star OK0 h bracket t eta xe kw o s b s' w,
  phys_ok F -> 0 < h -> ns_init F q N_star OK0 h bracket t eta xe kw = Ok o ->
  background s b -> b_K b = ie_K q -> (ie_K q = 1 \/ ie_K q = -1) ->
  calibrate_scale_factor (consts_of F euler z3) S (aeqs_of q) (args_Omega OK0 h) s = (s', Ok w) ->
  scal s' "N0" (ns_N0 o) /\ scal s' "Omega_K0" OK0 /\ exists a0, get_a0 F h OK0 "planck" = Ok a0 /\ scal s' "a0" a0 /\ 0 < a0.
Proof.
  intros F euler z3 S q N_star OK0 h bracket t eta xe kw o s b s' w HP Hh EI HB EK HK E.
  pose proof (C67_calibration_constants F HP euler z3) as HC. set (C := consts_of F euler z3) in *.
  assert (SA : sane (args_Omega OK0 h)) by (split; cbn; [lra|discriminate]).
  destruct (calibrate_result C S (aeqs_of q) (args_Omega OK0 h) s b s' w HC SA HB eq_refl E) as (co & EP & P & _).
  destruct P as (((_ & _ & _ & _ & _ & _ & _ & _ & _ & PN & PA & PO) & _) & _).
  assert (AK : a_K (aeqs_of q) = ie_K q) by (destruct q; reflexivity). rewrite AK in EP.
  apply pure_curved_inv in EP; [|lra]. destruct EP as (h' & ko & _ & Eh & Hp & EF & EK').
  cbn [args_Omega ca_h] in Eh. injection Eh as <-.
  apply pure_finish_inv in EF. destruct EF as (_ & _ & _ & EO). rewrite EO in PN, PA, PO. cbn [o_N0 o_a0 o_OmK] in PN, PA, PO.
  destruct EK' as [[_ EK']|[M _]]; [|cbn in M; discriminate].
  unfold pure_Omega in EK'. cbn [args_Omega ca_Omega_K0 ca_rho_reh_GeV] in EK'. destruct (Req_EM_T OK0 0) as [|NO]; [discriminate|].
  destruct (Req_EM_T (np_sign OK0) (- b_K b)) as [SG|]; [|discriminate]. injection EK' as <-. cbn [k_N0 k_a0 k_OmK] in PN, PA, PO.
  destruct (C63_matches_calibration F HP h OK0 Hh NO) as (aM & a0 & G1 & G2 & G3 & G4).
  assert (EA : a0M_of C h (b_K b) OK0 = aM).
  { unfold a0M_of. rewrite <- G3. cbn [C consts_of c_light]. f_equal. f_equal. f_equal. unfold Kof. unfold np_sign in SG.
    destruct (Rlt_dec 0 OK0); [lra|]. destruct (Rlt_dec OK0 0); lra. }
  rewrite EA in PN, PA. change (Mpc_m C) with (u_Mpc_m F) in *. change (lp_m C) with (u_lp_m F) in *. rewrite G4 in PN, PA.
  unfold ns_init in EI. destruct (Req_EM_T OK0 0); [contradiction|]. destruct (last_of bracket) as [pb|]; [|discriminate]. cbn [bind] in EI.
  destruct (is_init q pb t eta xe kw); [|discriminate]. cbn [bind] in EI. rewrite G2 in EI. cbn [bind] in EI. injection EI as <-. cbn [ns_N0].
  split; [exact PN|]. split; [exact PO|]. exists a0. split; [exact G2|]. split; [exact PA|].
  destruct (a0_val F HP h OK0 Hh) as (a0' & G2' & P0). congruence.
Qed.

(** ** a complete run: an open universe inflating from N = 0 to N = 3 at constant H with V = 1 *)
Definition exU : potfun := mkpotfun (fun _ => 1) (fun _ => 0) (fun _ => 0) (fun _ => 0).
Definition exd (N : R) : R := - sqrt (2 * (3 * (3/2 - exp (-2 * N)) - 1)).
Definition exq : ieqs := IT (-1) exU false.
Definition exr : raw_sol :=
  mkraw [0; 1; 2; 3] [[0; exd 0; 0]; [0; exd 1; 1]; [0; exd 2; 2]; [0; exd 3; 3]] [[]; [3]; []; []] [[]; [[0; exd 3; 3]]; []; []].
Definition exF : phys := mkphys 1 1 1 1 1 1.
(** the Hubble parameter today that puts the pivot scale at N = 1 *)
Definition exh : R := p_K_STAR / (100 * 1000 * exp (1 + ln (sqrt (3/2)))).

Lemma exd_H2 N : 0 <= N -> T_get_H2 N (exd N) 1 (-1) = 3/2.
Proof.
  intros HN. assert (E1 : exp (-2 * N) <= 1). { rewrite <- exp_0. destruct (Req_dec N 0) as [->|]; [right; f_equal; ring|left; apply exp_increasing; lra]. }
  unfold T_get_H2, exd. replace ((- sqrt (2 * (3 * (3 / 2 - exp (-2 * N)) - 1)))^2) with (sqrt (2 * (3 * (3 / 2 - exp (-2 * N)) - 1)) * sqrt (2 * (3 * (3 / 2 - exp (-2 * N)) - 1))) by ring.
  rewrite sqrt_sqrt by lra. lra.
Qed.
Lemma exd_0 : exd 0 = -1.
Proof. unfold exd. rewrite Rmult_0_r, exp_0. replace (2 * (3 * (3/2 - 1) - 1)) with 1 by field. rewrite sqrt_1. reflexivity. Qed.
Lemma ex_contract N0 : shoot_contract exq N0 exr.
Proof.
  split; [|split; [intros C; exfalso; apply C; reflexivity|cbn; lia]].
  repeat split; try discriminate. intros [|[|[|[|[|j]]]]] te ye; cbn; intros A B; try discriminate; injection A as <-; injection B as <-; reflexivity.
Qed.

Definition ivp_exr : integrator := fun _ _ _ _ _ => (exr, false).
Definition exbg : bg := mkbg (-1) [0; 1; 2; 3] (map sqrt [3/2; 3/2; 3/2; 3/2]) [false; true; true; false] 0 3 (sqrt (3/2)) (sqrt (3/2)) 1.
Lemma exh_pos : 0 < exh.
Proof. unfold exh, p_K_STAR. apply Rdiv_lt_0_compat; [lra|]. apply Rmult_lt_0_compat; [lra|apply exp_pos]. Qed.

Lemma ex_H2 x p N : 0 <= N -> e_H2 (eqs_ie exq) x [p; exd N; N] = 3/2.
Proof. intros HN. change (e_H2 (eqs_ie exq) x [p; exd N; N]) with (T_get_H2 N (exd N) 1 (-1)). apply exd_H2, HN. Qed.
Lemma ex_bg : bg_of (eqs_ie exq) exr 0 [0; exd 0; 0] 3 [0; exd 3; 3] = exbg.
Proof.
  unfold bg_of, exbg. cbn [exr r_t r_y zipw]. rewrite !ex_H2 by lra.
  change (e_K (eqs_ie exq)) with (-1). change (e_V (eqs_ie exq) _) with 1.
  assert (EN : forall x p d n, e_N (eqs_ie exq) x [p; d; n] = n) by reflexivity. rewrite !EN. cbn [map].
  repeat match goal with |- context [Rlt_dec ?x ?y] => destruct (Rlt_dec x y); try (exfalso; lra) end. reflexivity.
Qed.
Lemma ex_starts N0 : starts_at (eqs_ie exq) (shoot_events N0) exr 0 [0; exd 0; 0].
Proof.
  split; [reflexivity|]. exists 0, [1; 2; 3], [0; exd 0; 0], [[0; exd 1; 1]; [0; exd 2; 2]; [0; exd 3; 3]]. split; [reflexivity|]. split; [reflexivity|].
  left. split; [|split; reflexivity]. left. change (e_inflating (eqs_ie exq) 0 [0; exd 0; 0]) with (1 - (exd 0)^2). rewrite exd_0. lra.
Qed.
Lemma ex_ends N0 : ends_at (shoot_events N0) exr 3 [0; exd 3; 3].
Proof. exists []. left. reflexivity. Qed.
Lemma ex_solved fmt_e verbose N0 s ws : solve fmt_e (eqs_ie exq) verbose (shoot_events N0) exr = Ok (s, ws) ->
  background s exbg /\ fields s (map (fun y => nth 0 y 0) (r_y exr)) (map (fun y => nth 1 y 0) (r_y exr)).
Proof.
  intros ES. assert (Hq : inflation_eqs (eqs_ie exq)) by (left; repeat eexists).
  assert (ND : NoDup (map (event_name fmt_e) (shoot_events N0))) by (cbn; nodup).
  assert (IV : ivp_ok (List.length (e_idx (eqs_ie exq))) (List.length (shoot_events N0)) exr) by apply (ex_contract N0).
  split; [|eapply C23_field_samples; eassumption].
  destruct (solve_ok fmt_e (eqs_ie exq) verbose (shoot_events N0) exr Hq ND IV) as (s0 & E0 & SO). rewrite ES in E0. injection E0 as <- _.
  rewrite <- ex_bg. apply (solved_background (eqs_ie exq) (shoot_events N0)); [exact SO|reflexivity|apply ex_starts|apply ex_ends| | | |].
  - cbn [exr r_t r_y zipw]. rewrite !ex_H2 by lra. repeat constructor; lra.
  - rewrite ex_H2; lra.
  - rewrite ex_H2; lra.
  - change (0 < 1). lra.
Qed.
Lemma exbg_logaH : let c := ln (sqrt (3/2)) in logaH exbg = [0 + c; 1 + c; 2 + c; 3 + c].
Proof. reflexivity. Qed.
Lemma exbg_umask : umask exbg = [false; true; true; false].
Proof.
  unfold umask. rewrite exbg_logaH. cbn [exbg b_mask map first_occ existsb negb zipw andb]. unfold same_fl. cbn [feq isnan].
  repeat match goal with |- context [Req_EM_T ?x ?y] => destruct (Req_EM_T x y); [exfalso; lra|] end. reflexivity.
Qed.
Lemma ex_first euler z3 : exists o, pure_first (consts_of exF euler z3) (args_Omega 1 exh) (-1) exbg = Ok o /\ o_ns o = 2.
Proof.
  set (C := consts_of exF euler z3). pose proof exh_pos as HP. unfold pure_first. destruct (Req_EM_T (-1) 0); [lra|]. cbn [args_Omega ca_N_star ca_h is_given is_none negb].
  destruct (Rle_dec exh 0); [lra|]. change (ca_method (args_Omega 1 exh)) with (@None string). cbv zeta. cbn [String.eqb Ascii.eqb Bool.eqb bind].
  unfold pure_Omega. change (ca_Omega_K0 (args_Omega 1 exh)) with (Some 1). change (ca_rho_reh_GeV (args_Omega 1 exh)) with (@None R). cbn iota. destruct (Req_EM_T 1 0); [lra|]. change (b_K exbg) with (-1).
  assert (SG : np_sign 1 = - -1) by (unfold np_sign; destruct (Rlt_dec 0 1); lra). rewrite SG. destruct (Req_EM_T (- -1) (- -1)); [|lra]. cbv zeta. cbn [bind].
  set (ko := mkkout _ _ _ _ _ _ _ _ _). unfold pure_finish.
  assert (EM : maskedL (remask exbg) = [1 + ln (sqrt (3/2)); 2 + ln (sqrt (3/2))]).
  { unfold maskedL. change (b_mask (remask exbg)) with (umask exbg). rewrite exbg_umask. reflexivity. }
  assert (EN : maskedN (remask exbg) = [1; 2]).
  { unfold maskedN. change (b_mask (remask exbg)) with (umask exbg). rewrite exbg_umask. reflexivity. }
  rewrite EM, EN. cbn [map]. cbv zeta.
  assert (EA : ln (K_STAR C) = 1 + ln (sqrt (3/2)) - ln (k_a0M ko)).
  { unfold ko, a0M_of, C, consts_of. cbn [k_a0M c_light K_STAR exF p_c]. replace (- -1 / 1) with 1 by field. rewrite sqrt_1.
    unfold exh. set (x := 1 + ln (sqrt (3/2))). pose proof (exp_pos x). assert (KP : 0 < p_K_STAR) by (unfold p_K_STAR; lra).
    replace (1 / (p_K_STAR / (100 * 1000 * exp x) * 100 * 1000) * 1) with (exp x / p_K_STAR) by (field; lra).
    unfold Rdiv. rewrite ln_mult, ln_Rinv, ln_exp by (assumption || apply Rinv_0_lt_compat; assumption). ring. }
  rewrite EA. set (L := ln (k_a0M ko)). unfold lmin, lmax. cbn [fold_left]. set (c := ln (sqrt (3/2))).
  rewrite Rmin_left, Rmax_right by lra.
  destruct (Rlt_dec _ _); [lra|]. destruct (Rlt_dec _ _); [lra|]. cbn [combine].
  assert (I : interp1d [(1 + c - L, 1); (2 + c - L, 2)] (1 + c - L) = Ok 1).
  { unfold interp1d. cbn [sort_x insert_x fst]. destruct (Rle_dec _ _); [|lra]. cbn [last fst]. destruct (Rlt_dec _ _); [lra|]. destruct (Rlt_dec _ _); [lra|].
    f_equal. cbn [seg_value]. try (destruct (Rle_dec _ _); [|lra]). field. lra. }
  rewrite I. cbn [bind]. eexists. split; [reflexivity|]. cbn [o_ns b_end exbg]. ring.
Qed.

(** a case of C86_zero (and of C86_objective, C86_scale): all hypotheses hold and the objective vanishes *)
Theorem C86_nonvacuous : forall fmt_e euler z3, exists a0,
  get_a0 exF exh 1 "planck" = Ok a0 /\ 0 < ln a0 /\ shoot_contract exq (ln a0) exr /\
  phii2Nstar exF euler z3 exS fmt_e ivp_exr true exq (Some 0) None 100 (InN 0) 2 1 exh (ln a0) 0 = Ok (Fin 0).
Proof.
  intros fmt_e euler z3. assert (HP : phys_ok exF) by (unfold phys_ok, exF; cbn; lra). pose proof exh_pos as Hh.
  destruct (C63_matches_calibration exF HP exh 1 Hh ltac:(lra)) as (aM & a0 & _ & G2 & G3 & G4).
  assert (L0 : 0 < ln a0).
  { rewrite <- ln_1. apply ln_increasing; [lra|]. rewrite <- G4, <- G3. unfold Kof. destruct (Rlt_dec 0 1); [|lra]. replace (- -1 / 1) with 1 by field. rewrite sqrt_1.
    cbn [exF p_c]. unfold exh. set (x := 1 + ln (sqrt (3/2))).
    assert (X : 1 < exp x).
    { rewrite <- exp_0. apply exp_increasing. unfold x. assert (0 < ln (sqrt (3/2))); [|lra]. rewrite <- ln_1. apply ln_increasing; [lra|].
      rewrite <- sqrt_1. apply sqrt_lt_1; lra. }
    assert (KP : 0 < p_K_STAR <= 1) by (unfold p_K_STAR; lra).
    replace (1 / (p_K_STAR / (100 * 1000 * exp x) * 100 * 1000) * 1) with (exp x / p_K_STAR) by (field; split; lra).
    unfold u_Mpc_m, u_lp_m, mega, exF. cbn [p_parsec p_G p_hbar p_c].
    set (q := sqrt _). assert (Q : 0 < q <= 10^6).
    { unfold q. split; [apply sqrt_lt_R0; pose proof PI_RGT_0; apply Rdiv_lt_0_compat; lra|]. apply Rsqr_incr_0_var; [|lra]. rewrite Rsqr_sqrt; [|pose proof PI_RGT_0; lra].
      pose proof PI_4. unfold Rsqr. lra. }
    replace (exp x / p_K_STAR * (10^6 * 1) / q) with (exp x * (/ p_K_STAR * (10^6 / q))) by (field; split; lra).
    assert (1 <= / p_K_STAR) by (rewrite <- Rinv_1; apply Rinv_le_contravar; lra).
    assert (1 <= 10^6 / q) by (apply Rmult_le_reg_r with q; [lra|]; unfold Rdiv; rewrite Rmult_assoc, Rinv_l, Rmult_1_r, Rmult_1_l; lra).
    assert (1 <= / p_K_STAR * (10^6 / q)) by (rewrite <- (Rmult_1_r 1); apply Rmult_le_compat; lra).
    apply Rlt_le_trans with (exp x * 1); [lra|]. apply Rmult_le_compat_l; lra. }
  exists a0. split; [exact G2|]. split; [exact L0|]. split; [apply ex_contract|].
  assert (HA : admissible (-1) (pV exU 0) (InN 0)). { cbn [admissible pV exU]. rewrite Rmult_0_r, exp_0. lra. }
  pose proof (is_from_N exq 0 (Some 0) None 100 0 HA) as E.
  destruct (is_call_spec exq 0 (Some 0) None 100 (InN 0) (Fin 0) (Fin (- -1 / (pV exU 0 / 2 * exp (2 * 0) - -1))) (Fin (sqrt (pV exU 0 / 2 * exp (2 * 0) - -1))) (Fin (sqrt (pV exU 0 / 2 - -1 * exp (-2 * 0)))) eq_refl) as [_ B].
  destruct B as [y [_ Cc]]; [intros [D _]; discriminate|].
  specialize (Cc (repeat (Fin 0) 3) eq_refl).
  assert (Y : Ok [Fin 0; fneg (fsqrt (Fin 1)); Fin 0] = Ok y) by exact (f_equal state_of Cc).
  assert (Y' : y = map Fin [0; - sqrt 1; 0]).
  { rewrite fsqrt_fin in Y by lra. cbn [fneg] in Y. cbn [map]. congruence. }
  rewrite Y' in Cc. clear Y Y'.
  apply (C86_zero exF euler z3 exS fmt_e ivp_exr true exq (Some 0) None 100 (InN 0) 2 1 exh (ln a0) 0 _ _ [0; - sqrt 1; 0] 0 eq_refl ltac:(lra) L0 E Cc eq_refl).
  { apply ex_contract. }
  assert (Hq : inflation_eqs (eqs_ie exq)) by (left; repeat eexists).
  destruct (solve_ok fmt_e (eqs_ie exq) true (shoot_events (ln a0)) exr Hq) as (s & ES & SO); [cbn; nodup|apply (ex_contract (ln a0))|].
  destruct (ex_solved fmt_e true (ln a0) s _ ES) as [HB HF].
  destruct (ex_first euler z3) as (o & EP & EN).
  assert (SA : sane (args_Omega 1 exh)) by (split; cbn; [lra|discriminate]).
  destruct (calibrate_succeeds (consts_of exF euler z3) exS (aeqs_of exq) (args_Omega 1 exh) s exbg o _ _ 3%nat
     (C67_calibration_constants exF HP euler z3) SA HB eq_refl EP HF ltac:(cbn; lia) exS_ok eq_refl eq_refl ltac:(lia)) as (s' & w & EC & PC & _).
  do 5 eexists. split; [exact ES|]. split; [|split; [|split; [exact EC|]]].
  - destruct HB as (_ & _ & _ & _ & _ & _ & _ & BT & _). unfold get_F, getattr. rewrite BT. reflexivity.
  - cbn. lra.
  - destruct PC as (((_ & _ & _ & P4 & _) & _) & _). unfold get_F, getattr. rewrite P4, EN. reflexivity.
Qed.
