(** Calibration does not depend on what was done to the object before, property C104. *)
From Coq Require Import Reals List String ZArith Bool Lra Lia.
From Verif Require Import Base Model.Equations Model.Background Model.Float Model.Solution Model.Interp Model.State Model.Reheating
  Model.ApproxPower Model.Calibrate Spec.CalibSpec Proofs.BaseLemmas Proofs.FloatLemmas Proofs.DictLemmas Proofs.StateLemmas Proofs.CalibFrame
  Proofs.CalibPure Proofs.CalibPure2 Proofs.CalibPure3 Proofs.CalibRun Proofs.PowerRun Proofs.CalibResult Proofs.CalibTotal Proofs.CalibCompare
  Proofs.OscodeWin Properties.CalibProps Properties.CalibProps2.
Import ListNotations.
Open Scope R_scope.
Open Scope string_scope.

(** ** the background survives a calibration, also one that fails half-way *)
Section Keep.
Variables (C : consts) (b : bg).
Hypothesis HC : consts_ok C.
Hypothesis HU : umask b = b_mask b.
Lemma remask_id : remask b = b.
Proof. unfold remask. rewrite HU. destruct b; reflexivity. Qed.
Definition kb {A} (m : M A) : Prop := forall s, background s b -> background (fst (m s)) b.
Lemma kb_bind {A B} (m : M A) (f : A -> M B) : kb m -> (forall x, kb (f x)) -> kb (bindM m f).
Proof. intros H1 H2 s HB. unfold bindM. specialize (H1 s HB). destruct (m s) as [s1 [x|e]]; [apply H2; exact H1|exact H1]. Qed.
Lemma kb_touch {A} ks (m : M A) : touches ks m -> forallb (fun k => negb (existsb (String.eqb k) ks)) bg_attrs = true -> kb m.
Proof. intros T N s HB. destruct (m s) as [s1 r] eqn:E. exact (background_touch _ _ _ _ _ _ T E HB (bg_not_in ks N)). Qed.
Lemma kb_finish s o : background s b -> staged s o -> background (fst (flat_finish C s)) b.
Proof. intros HB HS. destruct (flat_finish_run C s b o HC HB HS) as (s' & E & _ & BG & _). rewrite E. cbn [fst]. rewrite remask_id in BG. exact BG. Qed.
Lemma kb_curved_finish s ko : background s b -> kstaged s ko -> 0 < k_a0M ko -> background (fst (curved_finish C s)) b.
Proof.
  intros HB HS HP. unfold curved_finish.
  pose proof HB as (BK & BN & BH & BL & BM & Bb & Be & R).
  pose proof HS as (S1 & S2 & S3 & S4 & S5 & S6 & S7 & S8 & S9). unfold scal, arr in *.
  erewrite run_bind_getA by rd. erewrite run_bind_getF by rd. rewrite flog_fin by exact HP. rewrite map_map. cbn [fsub].
  destruct (set_logk_run s b (fun x => x - ln (k_a0M ko)) HB) as (s1 & E & G1 & G2 & F); [intros; split; lra|].
  rewrite (run_bind_step _ _ _ _ _ E).
  assert (HB1 : background s1 b).
  { rewrite <- remask_id. apply (background_remask s); [exact HB| |exact G1]. intros k N I. apply F; [exact N|]. intros ->; revert I; unfold bg_attrs; ni. }
  match goal with |- background (fst (?m s1)) b => assert (X : kb m); [|exact (X s1 HB1)] end.
  apply (kb_touch ["_logaH_star"; "_N_cross"; "N_star"]); [touch|reflexivity].
Qed.
Lemma kb_calibrate S q a : sane a -> ca_background a = None -> kb (calibrate_scale_factor C S q a).
Proof.
  intros HA HN. unfold calibrate_scale_factor. rewrite HN. apply kb_bind; [|intros []; apply kb_bind; [|intros w; apply kb_bind; [|intros []]]].
  2:{ apply (kb_touch common_attrs); [apply touches_common|reflexivity]. }
  2:{ apply (kb_touch (power_attrs ++ derived_attrs)); [apply touches_derive|reflexivity]. }
  2:{ apply (kb_touch []); [apply touches_ret|reflexivity]. }
  destruct (Req_EM_T (a_K q) 0) as [_|_].
  - unfold calibrate_flat. rewrite HN. apply kb_bind; [apply (kb_touch []); [touch|reflexivity]|intros []]. intros s HB.
    rewrite !run_bind_setF. set (s0 := setattr "Omega_K0" _ _).
    assert (HB0 : background s0 b).
    { eapply background_frame; [exact HB|]. intros k I. unfold s0, setattr. rewrite !get_set_neq by (intros ->; revert I; unfold bg_attrs; ni). reflexivity. }
    assert (Q1 : scal s0 "N0" 0) by (unfold s0, scal; gs). assert (Q2 : scal s0 "a0" 1) by (unfold s0, scal; gs). assert (Q3 : scal s0 "Omega_K0" 0) by (unfold s0, scal; gs).
    clearbody s0. cbv zeta.
    assert (GEN : forall m p, refines (m s0) p -> touches flat_N_star_attrs m -> background (fst (bindM m (fun _ => flat_finish C) s0)) b).
    { intros m p RF TM. unfold bindM. destruct (m s0) as [s2 r2] eqn:E2.
      pose proof (background_touch _ _ _ _ _ _ TM E2 HB0 (bg_not_in flat_N_star_attrs eq_refl)) as HB2.
      destruct p as [o|e]; cbn [refines fst snd] in RF; [destruct RF as [-> ST]; exact (kb_finish s2 o HB2 ST)|subst r2; exact HB2]. }
    destruct (String.eqb _ "N_star"); [|destruct (String.eqb _ "reheating")].
    + eapply GEN; [apply flat_N_star_refines; eassumption|apply touches_flat_N_star].
    + eapply GEN; [apply flat_reheating_refines; eassumption|apply touches_flat_reheating].
    + exact HB0.
  - unfold calibrate_curved. destruct (is_given (ca_N_star a)); [intros s HB; exact HB|]. destruct (ca_h a) as [h|]; [|intros s HB; exact HB].
    destruct (Rle_dec h 0) as [Hle|Hgt]; [intros s HB; exact HB|]. assert (Hh : 0 < h) by lra. intros s HB. rewrite run_bind_setF. cbv zeta.
    set (s0 := setattr "delta_N_calib" _ s). set (me := match ca_method a with Some x => x | None => "Omega_K0" end).
    assert (HB0 : background s0 b).
    { eapply background_frame; [exact HB|]. intros k I. unfold s0, setattr. rewrite !get_set_neq by (intros ->; revert I; unfold bg_attrs; ni). reflexivity. }
    clearbody s0.
    assert (GEN : forall m p, krefines (m s0) p -> (forall ko, p = Ok ko -> 0 < k_a0M ko) -> touches curved_attrs m -> background (fst (bindM m (fun _ => curved_finish C) s0)) b).
    { intros m p RF PA TM. unfold bindM. destruct (m s0) as [s2 r2] eqn:E2.
      pose proof (background_touch _ _ _ _ _ _ TM E2 HB0 (bg_not_in curved_attrs eq_refl)) as HB2.
      destruct p as [ko|e]; cbn [krefines fst snd] in RF; [destruct RF as [-> ST]; exact (kb_curved_finish s2 ko HB2 ST (PA ko eq_refl))|subst r2; exact HB2]. }
    destruct (String.eqb me "Omega_K0") eqn:E1; [|destruct (String.eqb me "reheating") eqn:E2].
    + eapply GEN; [apply Omega_refines; eassumption| |apply touches_curved_Omega_K0].
      intros ko EK. apply (k_a0M_pos C a h b ko me HC Hh). rewrite E1. exact EK.
    + eapply GEN; [apply curved_reheating_refines; eassumption| |apply touches_curved_reheating].
      intros ko EK. apply (k_a0M_pos C a h b ko me HC Hh). rewrite E1, E2. exact EK.
    + exact HB0.
Qed.
End Keep.
Definition all_attrs : list string := calib_attrs ++ power_attrs ++ derived_attrs.
Lemma sub_incl ks l : forallb (fun k => existsb (String.eqb k) l) ks = true -> incl ks l.
Proof. intros H k I. rewrite forallb_forall in H. specialize (H k I). apply existsb_exists in H as (x & J & E). apply String.eqb_eq in E as ->. exact J. Qed.
Lemma touches_calibrate C S q a : ca_background a = None -> touches all_attrs (calibrate_scale_factor C S q a).
Proof.
  intros HN. unfold calibrate_scale_factor. rewrite HN.
  apply touches_bind; [destruct (Req_EM_T (a_K q) 0)|intros []; apply touches_bind; [|intros w; apply touches_bind; [|intros []; apply touches_ret] ] ].
  - apply (touches_incl calib_attrs); [|apply sub_incl; reflexivity]. unfold calibrate_flat. rewrite HN. unfold calib_attrs. touch;
        first [eapply touches_incl; [apply touches_flat_N_star|] | eapply touches_incl; [apply touches_flat_reheating|] | eapply touches_incl; [apply touches_flat_finish|]];
        apply sub_incl; reflexivity.
  - apply (touches_incl calib_attrs); [|apply sub_incl; reflexivity]. unfold calibrate_curved. unfold calib_attrs. touch;
        first [eapply touches_incl; [apply touches_curved_Omega_K0|] | eapply touches_incl; [apply touches_curved_reheating|] | eapply touches_incl; [apply touches_curved_finish|]];
        apply sub_incl; reflexivity.
  - eapply touches_incl; [apply touches_common|]. apply sub_incl. reflexivity.
  - eapply touches_incl; [apply touches_derive|]. apply sub_incl. reflexivity.
Qed.

(** ** histories *)
(** what a user may do with a solution object after the run: calibrate, or look at the approximate spectra *)
Inductive op := Calibrate (a : calargs) | Spectrum (st : string) (k : R) (me : string) (ord : option Z) (o : splopts).
Definition op_ok (x : op) : Prop := match x with Calibrate a => sane a /\ ca_background a = None | Spectrum _ _ _ _ _ => True end.
(** the object afterwards, whether the call returned or raised *)
Definition do_op (C : consts) (S : splines) (q : aeqs) (s : attrs) (x : op) : attrs :=
  match x with
  | Calibrate a => fst (calibrate_scale_factor C S q a s)
  | Spectrum st k me ord o => fst (P_approx C S q st k me ord o s)
  end.
Definition history (C : consts) (S : splines) (q : aeqs) (xs : list op) (s : attrs) : attrs := fold_left (do_op C S q) xs s.

(** no sample in use repeats an earlier value of aH *)
Definition no_repeats (b : bg) : Prop :=
  forall i j x, (j < i)%nat -> nth_error (b_mask b) i = Some true -> nth_error (logaH b) i = Some x -> nth_error (logaH b) j <> Some x.
Lemma no_repeats_mask b : List.length (b_mask b) = List.length (logaH b) -> no_repeats b -> umask b = b_mask b.
Proof.
  intros L H. unfold umask.
  assert (LZ : List.length (zipw andb (b_mask b) (first_occ [] (map Fin (logaH b)))) = List.length (b_mask b)).
  { rewrite zipw_length; rewrite first_occ_length, map_length; congruence. }
  apply nth_error_ext'. intros i.
  destruct (nth_error (b_mask b) i) as [[|]|] eqn:E.
  - destruct (nth_error (logaH b) i) as [x|] eqn:X.
    + apply (first_occ_complete [] (logaH b) (b_mask b) i x); auto. intros j y J Y ->. exact (H i j x J E X Y).
    + exfalso. apply nth_error_None in X. assert (i < List.length (b_mask b))%nat by (apply nth_error_Some; congruence). lia.
  - revert E LZ. generalize (first_occ [] (map Fin (logaH b))). generalize (b_mask b). clear. induction i as [|i IH]; intros [|c m] [|d f]; cbn [zipw nth_error List.length]; try discriminate.
    + intros [= ->] _. reflexivity.
    + intros E L. apply IH; [exact E|lia].
  - apply nth_error_None. apply nth_error_None in E. lia.
Qed.
Lemma op_keeps C S q b ph dp x s : consts_ok C -> umask b = b_mask b -> op_ok x -> background s b -> fields s ph dp ->
  background (do_op C S q s x) b /\ fields (do_op C S q s x) ph dp.
Proof.
  intros HC HU HO HB HF. destruct x as [a|st k me ord o]; cbn [do_op].
  - destruct HO as [HA HN]. split; [apply kb_calibrate; assumption|].
    destruct (calibrate_scale_factor C S q a s) as [s1 r] eqn:E. cbn [fst]. apply (fields_frame s); [exact HF|].
    intros k I. apply (touches_calibrate C S q a HN _ _ _ E). revert k I. apply Forall_forall. unfold all_attrs. repeat constructor; ni.
  - destruct (P_approx C S q st k me ord o s) as [s1 r] eqn:E. cbn [fst]. pose proof (touches_P_approx C S q st k me ord o _ _ _ E) as T. split.
    + eapply background_frame; [exact HB|]. intros j I. apply T. revert I. apply bg_not_in. reflexivity.
    + apply (fields_frame s); [exact HF|]. intros j I. apply T. revert j I. apply Forall_forall. repeat constructor; unfold power_attrs; ni.
Qed.
Lemma history_keeps C S q b ph dp xs : forall s, consts_ok C -> umask b = b_mask b -> Forall op_ok xs -> background s b -> fields s ph dp ->
  background (history C S q xs s) b /\ fields (history C S q xs s) ph dp.
Proof.
  induction xs as [|x xs IH]; intros s HC HU HO HB HF; [split; assumption|]. inversion HO as [|? ? O1 O2]; subst.
  destruct (op_keeps C S q b ph dp x s HC HU O1 HB HF) as [B1 F1]. exact (IH _ HC HU O2 B1 F1).
Qed.

Definition spectrum_splines : list string := ["logk2logP_s"; "logk2logP_t"].
(** Whatever was done to the object before - calibrations with other arguments, failed ones, queries -
    a calibration has the same outcome and sets the same values as on the object that came from the run,
    if no sample in use repeats an earlier value of aH. *)
Theorem C104_history : forall C S q xs a s b ph dp,
  consts_ok C -> sane a -> Forall op_ok xs -> background s b -> no_repeats b -> fields s ph dp ->
  ca_background a = None -> documented (ca_approx a) (ca_order a) -> (3 <= o_k (ca_opts a))%nat ->
  let s' := history C S q xs s in
  snd (calibrate_scale_factor C S q a s') = snd (calibrate_scale_factor C S q a s) /\
  (forall s1 w, calibrate_scale_factor C S q a s = (s1, Ok w) ->
     exists s1', calibrate_scale_factor C S q a s' = (s1', Ok w) /\ agree (calibration ++ reheating ++ spectrum_splines) s1 s1').
Proof.
  intros C S q xs a s b ph dp HC HA HO HB NR HF HN HD H3 s'.
  assert (HU : umask b = b_mask b).
  { apply no_repeats_mask; [|exact NR]. unfold logaH. rewrite logaH_length by apply HB. apply HB. }
  destruct (history_keeps C S q b ph dp xs s HC HU HO HB HF) as [HB' HF'].
  destruct (compare C S q q a s s' b b (fun o => o) ph dp ph dp HC HA HB HB' HN HF HF' H3) as [R1 R2]; try reflexivity.
  - intros p. apply documented_spl. exact HD.
  - destruct (pure_first C a (a_K q) b); reflexivity.
  - split; [exact R1|]. intros s1 w E. destruct (R2 s1 w E) as (s1' & o & kn & E' & EP & L & L'). exists s1'. split; [exact E'|].
    destruct L as (C1 & Q1 & G1 & G2). destruct L' as (C2 & Q2 & G1' & G2').
    destruct C1 as (((A1 & A2 & A3 & A4 & A5 & A6 & A7 & A8 & A9 & A10 & A11 & A12) & BG1 & A13 & A14) & B1 & B2 & B3 & B4 & B5 & B6 & B7 & B8 & B9 & B10).
    destruct C2 as (((A1' & A2' & A3' & A4' & A5' & A6' & A7' & A8' & A9' & A10' & A11' & A12') & BG2 & A13' & A14') & B1' & B2' & B3' & B4' & B5' & B6' & B7' & B8' & B9' & B10').
    destruct BG1 as (_ & _ & _ & _ & BM1 & _). destruct BG2 as (_ & _ & _ & _ & BM2 & _).
    destruct Q1 as (S1 & S2 & S3 & S4 & S5 & S6 & S7). destruct Q2 as (S1' & S2' & S3' & S4' & S5' & S6' & S7').
    unfold scal, arr in *. apply agree_list. unfold calibration, reheating, spectrum_splines. cbn [app]. repeat (constructor; [eapply two_gets; eassumption|]). constructor.
Qed.

(** ** the condition is needed *)
(** the sample at N = 2 repeats the value of aH of an earlier sample before inflation *)
Definition bdup : bg := mkbg 0 [-2; 1; 2; 3] [exp (9/2); 1; exp (1/2); 1] [false; true; true; true] 0 4 1 1 1.
Definition sdup : attrs :=
  [("K", VF (Fin 0)); ("_N", VA (map Fin (b_N bdup))); ("H", VA (map Fin (b_H bdup))); ("_logaH", VA (map Fin (logaH bdup)));
   ("inflation_mask", VB (b_mask bdup)); ("_N_beg", VF (Fin 0)); ("_N_end", VF (Fin 4)); ("N_tot", VF (Fin (4 - 0)));
   ("H_end", VF (Fin 1)); ("V_end", VF (Fin 1)); ("_logaH_beg", VF (Fin (0 + ln 1))); ("_logaH_end", VF (Fin (4 + ln 1)));
   ("phi", VA (map Fin [4; 3; 2; 1])); ("dphidt", VA (map Fin [1/2; 1/2; 1/2; 1/2]))].
Lemma sdup_bg : background sdup bdup.
Proof.
  unfold background, scal, arr. repeat (split; [first [reflexivity | cbn; lra | cbn; repeat constructor; try lra; apply exp_pos]|]).
  cbn. repeat constructor; cbn; lra.
Qed.
Lemma bdup_logaH : logaH bdup = [5/2; 1; 5/2; 3].
Proof. unfold logaH, bdup. cbn. rewrite !ln_exp, ln_1. do 4 (apply f_equal2; [lra|]). reflexivity. Qed.
Lemma bdup_umask : umask bdup = [false; true; false; true].
Proof.
  unfold umask. rewrite bdup_logaH. cbn [bdup b_mask map first_occ existsb negb zipw andb]. unfold same_fl. cbn [feq isnan].
  repeat match goal with |- context [Req_EM_T ?x ?y] => destruct (Req_EM_T x y); try (exfalso; lra) end. all: reflexivity.
Qed.
Lemma interp3 : interp1d [(1, 1); (2, 5/2); (3, 3)] 2 = Ok (5/2).
Proof.
  unfold interp1d.
  assert (SO : sort_x [(1, 1); (2, 5/2); (3, 3)] = [(1, 1); (2, 5/2); (3, 3)]).
  { cbn [sort_x]. repeat (cbn [insert_x fst]; match goal with |- context [Rle_dec ?a ?b] => destruct (Rle_dec a b); [|exfalso; lra] end). reflexivity. }
  rewrite SO. cbn [last fst]. destruct (Rlt_dec 2 1); [lra|]. destruct (Rlt_dec 3 2); [lra|]. cbn [seg_value].
  destruct (Rle_dec 2 2); [f_equal; field|lra].
Qed.
Lemma interp2 : interp1d [(1, 1); (3, 3)] 2 = Ok 2.
Proof.
  unfold interp1d.
  assert (SO : sort_x [(1, 1); (3, 3)] = [(1, 1); (3, 3)]).
  { cbn [sort_x]. repeat (cbn [insert_x fst]; match goal with |- context [Rle_dec ?a ?b] => destruct (Rle_dec a b); [|exfalso; lra] end). reflexivity. }
  rewrite SO. cbn [last fst]. destruct (Rlt_dec 2 1); [lra|]. destruct (Rlt_dec 3 2); [lra|]. cbn [seg_value]. f_equal; field.
Qed.
(** calibrating twice with the same arguments, N_star = 2 *)
Theorem C104_refuted : exists C S q a s b, consts_ok C /\ accepting S /\ background s b /\
  exists s1 w1 s2 w2 d1 d2, calibrate_scale_factor C S q a s = (s1, Ok w1) /\ calibrate_scale_factor C S q a s1 = (s2, Ok w2) /\
    scal s1 "delta_N_calib" d1 /\ scal s2 "delta_N_calib" d2 /\ d1 <> d2.
Proof.
  set (a := args_N_star 2 None). set (q := mkaeqs AT 0 (mkpotfun (fun _ => 1) (fun _ => 0) (fun _ => 0) (fun _ => 0))).
  exists exC, exS, q, a, sdup, bdup. split; [exact exC_ok|]. split; [exact exS_ok|]. split; [exact sdup_bg|].
  assert (HA : sane a) by (split; cbn; [lra|discriminate]).
  assert (P : forall bb l, b_beg bb = 0 -> b_end bb = 4 -> interp1d (combine (maskedN bb) (maskedL bb)) (4 - 2) = Ok l -> exists o, pure_first exC a 0 bb = Ok o /\ o_dc o = 0 - l + lgK exC).
  { intros bb l Eb Ee EI. unfold pure_first. destruct (Req_EM_T 0 0) as [_|X]; [|exfalso; apply X; reflexivity]. cbn [a args_N_star ca_Omega_K0 ca_method ca_N_star bind]. cbv zeta.
    cbn [String.eqb Ascii.eqb Bool.eqb]. unfold pure_N_star. cbn [a args_N_star ca_N_star]. rewrite Eb, Ee. destruct (Rle_dec 2 0); [lra|]. destruct (Rlt_dec (4 - 0) 2); [lra|].
    cbv zeta. rewrite EI. cbn [bind]. unfold pure_N_star_reh. cbn [a args_N_star ca_rho_reh_GeV ca_w_reh ca_DeltaN_reh bind]. eexists. split; reflexivity. }
  destruct (P bdup (5/2) eq_refl eq_refl) as (o1 & P1 & D1).
  { unfold maskedN, maskedL. rewrite bdup_logaH. cbn [bdup b_mask b_N select combine]. replace (4 - 2) with 2 by ring. exact interp3. }
  destruct (P (remask bdup) 2 eq_refl eq_refl) as (o2 & P2 & D2).
  { unfold maskedN, maskedL. change (logaH (remask bdup)) with (logaH bdup). cbn [remask b_mask b_N]. rewrite bdup_umask, bdup_logaH. cbn [bdup b_N select combine]. replace (4 - 2) with 2 by ring. exact interp2. }
  assert (F : fields sdup [4; 3; 2; 1] [1/2; 1/2; 1/2; 1/2]) by (split; reflexivity).
  destruct (calibrate_succeeds exC exS q a sdup bdup o1 _ _ 3%nat exC_ok HA sdup_bg eq_refl P1 F ltac:(cbn; lia) exS_ok eq_refl eq_refl ltac:(lia)) as (s1 & w1 & E1 & C1 & F1).
  assert (B1 : background s1 (remask bdup)) by apply C1.
  destruct (calibrate_succeeds exC exS q a s1 (remask bdup) o2 _ _ 3%nat exC_ok HA B1 eq_refl P2 F1 ltac:(cbn; lia) exS_ok eq_refl eq_refl ltac:(lia)) as (s2 & w2 & E2 & C2 & _).
  exists s1, w1, s2, w2, (o_dc o1), (o_dc o2). split; [exact E1|]. split; [exact E2|]. split; [apply C1|]. split; [apply C2|]. rewrite D1, D2. lra.
Qed.
(** from the second calibration on nothing depends on the history any more: see C44_recalibration *)

(** a concrete case: the example object has no repeated value, and a failed calibration and a query precede *)
Theorem C104_nonvacuous U : no_repeats (exb 0) /\ background (exs 0) (exb 0) /\ fields (exs 0) [4; 3; 2; 1] [1/2; 1/2; 1/2; 1/2] /\
  Forall op_ok [Calibrate (args_N_star 100 None); Spectrum "s" 1 "LLMS" None default_opts; Calibrate ex36] /\
  snd (calibrate_scale_factor exC exS (mkaeqs AT 0 U) (args_N_star 100 None) (exs 0)) = Raise InsufficientInflationError /\
  exists s1 w, calibrate_scale_factor exC exS (mkaeqs AT 0 U) ex36 (exs 0) = (s1, Ok w).
Proof.
  split. { intros i j x L M X Y. rewrite exb_logaH in X, Y. destruct i as [|[|[|[|i] ] ] ]; [| | | |destruct i; discriminate];
    destruct j as [|[|[|j] ] ]; try lia; cbn [nth_error] in X, Y; injection X as <-; injection Y as Y; lra. }
  split; [apply exs_bg|]. split; [apply exs_fields|].
  split. { repeat constructor; cbn; try lra; discriminate. }
  split.
  { pose proof (calibrate_run exC exS (mkaeqs AT 0 U) (args_N_star 100 None) (exs 0) (exb 0) exC_ok ltac:(split; cbn; [lra|discriminate]) (exs_bg 0) eq_refl) as R.
    assert (E : pure_first exC (args_N_star 100 None) (a_K (mkaeqs AT 0 U)) (exb 0) = Raise InsufficientInflationError).
    { cbn [a_K]. unfold pure_first. destruct (Req_EM_T 0 0) as [_|X]; [|exfalso; apply X; reflexivity]. cbn [args_N_star ca_Omega_K0 ca_method bind]. cbv zeta. cbn [String.eqb Ascii.eqb Bool.eqb].
      unfold pure_N_star. cbn [args_N_star ca_N_star exb b_beg b_end]. destruct (Rle_dec 100 0); [lra|]. destruct (Rlt_dec (4 - -1) 100); [reflexivity|lra]. }
    rewrite E in R. exact R. }
  destruct ex36_pure as (o & EP & EL). assert (SN : sane ex36) by (split; cbn; [lra|discriminate]).
  destruct (calibrate_succeeds exC exS (mkaeqs AT 0 U) ex36 (exs 0) (exb 0) o _ _ 3%nat exC_ok SN (exs_bg 0) eq_refl EP (exs_fields 0) ltac:(cbn; lia) exS_ok eq_refl eq_refl ltac:(lia)) as (s' & w & E & P & F).
  eauto.
Qed.
