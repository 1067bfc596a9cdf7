(** What a successful calibration leaves on the solution object, and relations between the
    values of the pure calibration. *)
From Coq Require Import Reals List String ZArith Bool Lra Lia.
From Verif Require Import Base Model.Equations Model.Background Model.Float Model.Solution Model.Interp Model.State Model.Reheating
  Model.ApproxPower Model.Calibrate Spec.CalibSpec Proofs.BaseLemmas Proofs.FloatLemmas Proofs.DictLemmas Proofs.StateLemmas Proofs.CalibFrame
  Proofs.CalibPure Proofs.CalibPure2 Proofs.CalibPure3 Proofs.CalibRun Proofs.PowerRun.
Import ListNotations.
Open Scope R_scope.
Open Scope string_scope.

Definition keep_attrs : list string := calib_attrs ++ bg_attrs.
Lemma calibrated_frame C s s' b o : calibrated C s b o -> (forall k, In k keep_attrs -> dict_get k s' = dict_get k s) -> calibrated C s' b o.
Proof.
  unfold calibrated, prepared, staged, scal, arr. intros H F.
  rewrite !F by (unfold keep_attrs, calib_attrs, bg_attrs; inl).
  destruct H as ((H1 & H2 & H3) & H4). split; [|exact H4]. split; [exact H1|]. split; [|exact H3].
  eapply background_frame; [exact H2|]. intros k I. apply F. unfold keep_attrs. apply in_or_app. right. exact I.
Qed.
Lemma keep_not_power k : In k keep_attrs -> ~ In k (power_attrs ++ derived_attrs).
Proof.
  intros I J.
  assert (H : forallb (fun k => negb (existsb (String.eqb k) (power_attrs ++ derived_attrs))) keep_attrs = true) by reflexivity.
  rewrite forallb_forall in H. specialize (H k I). apply negb_true_iff in H.
  assert (T : existsb (String.eqb k) (power_attrs ++ derived_attrs) = true) by (apply existsb_exists; exists k; split; [exact J|apply String.eqb_refl]). congruence.
Qed.

Theorem calibrate_result C S q a s b s' w : consts_ok C -> sane a -> background s b -> ca_background a = None ->
  calibrate_scale_factor C S q a s = (s', Ok w) ->
  exists o, pure_first C a (a_K q) b = Ok o /\ calibrated C s' b o /\
    w = (if flt (o_dn o) (Fin 0) then [NegativeReheating] else if flt (Fin (o_N0 o)) (fadd (o_nreh o) (Fin (o_dc o))) then [ReheatingAfterToday] else []) /\
    (forall k, ~ In k (calib_attrs ++ power_attrs ++ derived_attrs) -> dict_get k s' = dict_get k s).
Proof.
  intros HC HA HB HN E. pose proof (calibrate_run C S q a s b HC HA HB HN) as R.
  destruct (pure_first C a (a_K q) b) as [o|e]; [|rewrite E in R; discriminate].
  destruct R as (s1 & w1 & P & W & F & EQ). rewrite E in EQ. symmetry in EQ. apply bind_inv in EQ. destruct EQ as (s2 & u & E2 & E3). injection E3 as <- <-.
  exists o. split; [reflexivity|]. pose proof (touches_derive C S q (ca_approx a) (ca_order a) (ca_opts a) _ _ _ E2) as T. split; [|split; [exact W|]].
  - eapply calibrated_frame; [exact P|]. intros k I. apply T, keep_not_power, I.
  - intros k N. rewrite T; [apply F|]; intros J; apply N; apply in_or_app; auto.
Qed.

(** relations between the values *)
Lemma pure_flat_inv C a b o : pure_first C a 0 b = Ok o ->
  (match ca_method a with Some x => x | None => "N_star" end = "N_star" /\ pure_N_star C a b = Ok o) \/
  (match ca_method a with Some x => x | None => "N_star" end = "reheating" /\ pure_flat_reheating C a b = Ok o).
Proof.
  unfold pure_first. destruct (Req_EM_T 0 0) as [_|]; [|lra].
  destruct (match ca_Omega_K0 a with Some x => _ | None => _ end); [|discriminate]. cbn [bind]. cbv zeta.
  destruct (String.eqb_spec (match ca_method a with Some x => x | None => "N_star" end) "N_star") as [E|E]; [auto|].
  destruct (String.eqb_spec (match ca_method a with Some x => x | None => "N_star" end) "reheating") as [E'|E']; [auto|]. discriminate.
Qed.
Lemma pure_curved_inv C a K b o : K <> 0 -> pure_first C a K b = Ok o ->
  exists h ko, ca_N_star a = None /\ ca_h a = Some h /\ 0 < h /\ pure_finish C b ko = Ok o /\
  ((match ca_method a with Some x => x | None => "Omega_K0" end = "Omega_K0" /\ pure_Omega C a h b = Ok ko) \/
   (match ca_method a with Some x => x | None => "Omega_K0" end = "reheating" /\ pure_curved_reheating C a h b = Ok ko)).
Proof.
  intros NK. unfold pure_first. destruct (Req_EM_T K 0) as [|_]; [contradiction|].
  destruct (ca_N_star a) as [n|]; [discriminate|]. cbn [is_given is_none negb]. destruct (ca_h a) as [h|]; [|discriminate].
  destruct (Rle_dec h 0); [discriminate|]. cbv zeta. intros E.
  destruct (String.eqb_spec (match ca_method a with Some x => x | None => "Omega_K0" end) "Omega_K0") as [E1|E1].
  - destruct (pure_Omega C a h b) as [ko|] eqn:EK; [|discriminate]. exists h, ko. repeat split; try lra; auto.
  - destruct (String.eqb_spec (match ca_method a with Some x => x | None => "Omega_K0" end) "reheating") as [E2|E2]; [|discriminate].
    destruct (pure_curved_reheating C a h b) as [ko|] eqn:EK; [|discriminate]. exists h, ko. repeat split; try lra; auto.
Qed.
Lemma pure_N_star_inv C a b o : pure_N_star C a b = Ok o ->
  exists ns, ca_N_star a = Some ns /\ 0 < ns <= b_end b - b_beg b /\ o_ns o = ns /\ o_nc o = b_end b - ns /\
    interp1d (combine (maskedN b) (maskedL b)) (b_end b - ns) = Ok (o_ls o) /\ o_dc o = lgK C - o_ls o /\ o_N0 o = 0 /\ o_a0 o = 1 /\ o_OmK o = 0 /\
    exists dm, o_dm o = Fin dm /\ dm = - ns - ln (K_STAR_lp C / exp (o_ls o - (b_end b - ns))) - lgg C a - lgV C (b_Vend b) /\
      pure_N_star_reh C a b dm (o_dc o) = Ok (o_nreh o, o_dn o, o_w o, o_rho o).
Proof.
  unfold pure_N_star. destruct (ca_N_star a) as [ns|]; [|discriminate]. destruct (Rle_dec ns 0); [discriminate|].
  destruct (Rlt_dec _ ns); [discriminate|]. cbv zeta. destruct (interp1d _ _) as [ls|] eqn:EI; [|discriminate]. cbn [bind].
  destruct (pure_N_star_reh _ _ _ _ _) as [[[[x1 x2] x3] x4]|] eqn:ER; [|discriminate]. cbn [bind fst snd]. intros [= <-]. exists ns. cbn [o_ns o_nc o_ls o_dc o_N0 o_a0 o_OmK o_dm o_nreh o_dn o_w o_rho].
  do 4 (split; [first [reflexivity|lra]|]). split; [exact EI|]. split; [ring|]. do 3 (split; [reflexivity|]). eexists. split; [reflexivity|]. split; [|exact ER]. ring.
Qed.
Lemma pure_flat_reh_inv C a b o : pure_flat_reheating C a b = Ok o ->
  bad_reheating a = false /\ exists dm, o_dm o = Fin dm /\ pure_reh_cases C a b = Ok (dm, o_dn o, o_w o, o_rho o) /\
    o_dc o = base_end C a b - dm - b_end b /\ o_ls o = lgK C - o_dc o /\
    b_beg b + ln (b_Hbeg b) <= o_ls o <= b_end b + ln (b_Hend b) /\
    interp1d (combine (maskedL b) (maskedN b)) (o_ls o) = Ok (o_nc o) /\ o_ns o = b_end b - o_nc o /\ o_nreh o = fadd (Fin (b_end b)) (o_dn o) /\
    o_N0 o = 0 /\ o_a0 o = 1 /\ o_OmK o = 0.
Proof.
  unfold pure_flat_reheating. destruct (bad_reheating a); [discriminate|]. intros E. split; [reflexivity|].
  destruct (pure_reh_cases C a b) as [[[[dm dn] w] rho]|]; [|discriminate]. cbn [bind fst snd] in E. cbv zeta in E.
  destruct (Rlt_dec _ _) as [|n1] in E; [discriminate|]. destruct (Rlt_dec _ _) as [|n2] in E; [discriminate|].
  destruct (interp1d _ _) as [nc|] eqn:EI; [|discriminate]. cbn [bind] in E. injection E as <-. exists dm.
  cbn [o_ns o_nc o_ls o_dc o_N0 o_a0 o_OmK o_dm o_nreh o_dn o_w o_rho]. do 3 (split; [reflexivity|]). split; [ring|]. split; [lra|]. split; [exact EI|]. repeat split.
Qed.
Lemma pure_finish_inv C b ko o : pure_finish C b ko = Ok o ->
  let lk := map (fun x => x - ln (k_a0M ko)) (maskedL (remask b)) in
  interp1d (combine lk (maskedN (remask b))) (ln (K_STAR C)) = Ok (o_nc o) /\
  (exists x, In x lk /\ x <= ln (K_STAR C)) /\ (exists x, In x lk /\ ln (K_STAR C) <= x) /\
  o = mkcout 0 (ln (K_STAR C * k_a0M ko)) (o_nc o) (b_end b - o_nc o) (k_dm ko) (k_nreh ko) (k_dn ko) (k_w ko) (k_rho ko) (k_N0 ko) (k_a0 ko) (k_OmK ko).
Proof.
  unfold pure_finish. cbv zeta. set (lk := map _ _). destruct lk as [|h t]; [discriminate|].
  destruct (Rlt_dec _ _) as [|n1]; [discriminate|]. destruct (Rlt_dec _ _) as [|n2]; [discriminate|].
  destruct (interp1d _ _) as [nc|] eqn:EI; [|discriminate]. cbn [bind]. intros [= <-]. cbn [o_nc]. split; [reflexivity|].
  assert (MIN : forall t h, In (lmin h t) (h :: t)).
  { clear. unfold lmin. induction t as [|x t IH]; intros h; [left; reflexivity|]. cbn [fold_left]. destruct (IH (Rmin h x)) as [E|E].
    - unfold Rmin in *. destruct (Rle_dec h x); [left; exact E|right; left; exact E].
    - right; right; exact E. }
  assert (MAX : forall t h, In (lmax h t) (h :: t)).
  { clear. unfold lmax. induction t as [|x t IH]; intros h; [left; reflexivity|]. cbn [fold_left]. destruct (IH (Rmax h x)) as [E|E].
    - unfold Rmax in *. destruct (Rle_dec h x); [right; left; exact E|left; exact E].
    - right; right; exact E. }
  split; [exists (lmin h t); split; [apply MIN|lra]|]. split; [exists (lmax h t); split; [apply MAX|lra]|]. reflexivity.
Qed.

(** the crossing is N_star e-folds before the end *)
Lemma pure_ns C a K b o : pure_first C a K b = Ok o -> o_ns o = b_end b - o_nc o.
Proof.
  destruct (Req_dec K 0) as [->|NK].
  - intros E. apply pure_flat_inv in E. destruct E as [[_ E]|[_ E]].
    + apply pure_N_star_inv in E. destruct E as (ns & _ & _ & E1 & E2 & _). lra.
    + apply pure_flat_reh_inv in E. destruct E as (_ & dm & _ & _ & _ & _ & _ & _ & E & _). exact E.
  - intros E. apply pure_curved_inv in E; [|exact NK]. destruct E as (h & ko & _ & _ & _ & E & _). apply pure_finish_inv in E. destruct E as (_ & _ & _ & ->). reflexivity.
Qed.
(** calibration of the scale factor against the pivot scale *)
Lemma pure_scale C a b o K : consts_ok C -> pure_first C a K b = Ok o ->
  0 < o_a0 o /\ o_N0 o = ln (o_a0 o) /\ o_a0 o * K_STAR_lp C = exp (o_dc o + o_ls o).
Proof.
  intros HC. pose proof (Klp_pos C HC) as KP. destruct (Req_dec K 0) as [->|NK].
  - assert (X : forall dc ls, dc = lgK C - ls -> 0 < 1 /\ 0 = ln 1 /\ 1 * K_STAR_lp C = exp (dc + ls)).
    { intros dc ls ->. split; [lra|]. split; [rewrite ln_1; reflexivity|]. replace (lgK C - ls + ls) with (lgK C) by ring. unfold lgK. rewrite exp_ln by exact KP. ring. }
    intros E. apply pure_flat_inv in E. destruct E as [[_ E]|[_ E]].
    + apply pure_N_star_inv in E. destruct E as (ns & _ & _ & _ & _ & _ & D & N0 & A0 & _). rewrite N0, A0. apply X, D.
    + apply pure_flat_reh_inv in E. destruct E as (_ & dm & _ & _ & _ & D & _ & _ & _ & _ & N0 & A0 & _). rewrite N0, A0. apply X. lra.
  - intros E. apply pure_curved_inv in E; [|exact NK]. destruct E as (h & ko & _ & _ & Hh & E & EK). apply pure_finish_inv in E. destruct E as (_ & _ & _ & ->).
    cbn [o_a0 o_N0 o_dc o_ls]. destruct HC as (P1 & P2 & P3 & P4 & P5 & P6 & P7 & P8).
    assert (KK : 0 < k_a0M ko /\ k_a0 ko = k_a0M ko * Mpc_m C / lp_m C /\ k_N0 ko = ln (k_a0 ko)).
    { destruct EK as [[_ EK]|[_ EK]].
      - unfold pure_Omega in EK. destruct (ca_Omega_K0 a) as [om|]; [|discriminate]. destruct (Req_EM_T om 0) as [|N]; [discriminate|].
        destruct (Req_EM_T (np_sign om) (- b_K b)) as [S|]; [|discriminate].
        destruct (a0M_pos C b h ltac:(unfold consts_ok; tauto) Hh om N S) as [_ P]. destruct (ca_rho_reh_GeV a); injection EK as <-; cbn; auto.
      - unfold pure_curved_reheating in EK. destruct (is_given (ca_Omega_K0 a)); [discriminate|]. destruct (bad_reheating a); [discriminate|].
        destruct (pure_curved_cases C a b) as [[[[[dm nr] dn] w] rho]|]; [|discriminate]. cbn [bind] in EK. injection EK as <-. cbn [k_a0M k_a0 k_N0].
        split; [apply Rdiv_lt_0_compat; [apply Rmult_lt_0_compat; [apply exp_pos|]|]; assumption|]. split; [field; lra|]. rewrite ln_exp. reflexivity. }
    destruct KK as (KP1 & KA & KN). split; [rewrite KA; apply Rdiv_lt_0_compat; [apply Rmult_lt_0_compat|]; assumption|]. split; [exact KN|].
    rewrite Rplus_0_l, exp_ln by (apply Rmult_lt_0_compat; assumption). rewrite KA. unfold K_STAR_lp. field. lra.
Qed.
