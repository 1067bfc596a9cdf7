(** Calibration succeeds whenever its pure part does and the splines can be built; an example object. *)
From Coq Require Import Reals List String ZArith Bool Lra Lia.
From Verif Require Import Base Model.Equations Model.Background Model.Float Model.Solution Model.Interp Model.State Model.Reheating
  Model.ApproxPower Model.Calibrate Spec.CalibSpec Proofs.BaseLemmas Proofs.FloatLemmas Proofs.DictLemmas Proofs.StateLemmas Proofs.CalibFrame
  Proofs.CalibPure Proofs.CalibPure2 Proofs.CalibPure3 Proofs.CalibRun Proofs.PowerRun Proofs.CalibResult.
Import ListNotations.
Open Scope R_scope.
Open Scope string_scope.

(** field and velocity samples *)
Definition fields (s : attrs) (ph dp : list R) : Prop := arr s "phi" ph /\ arr s (if has_key "dphidt" s then "dphidt" else "dphidN") dp.
Definition p_of (C : consts) (b : bg) (o : cout) (ph dp : list R) : pin :=
  mkpin (b_K b) (maskedN (remask b)) (select (umask b) (b_H b)) (select (umask b) ph) (select (umask b) dp)
    (map (fun x => x + ln (K_STAR C) - o_ls o) (maskedL (remask b))) (o_nc o).
Lemma calibrated_powered C s b o ph dp : calibrated C s b o -> fields s ph dp -> powered s (p_of C b o ph dp).
Proof.
  intros [(ST & BG & _ & LK) _] [F1 F2]. destruct BG as (BK & BN & BH & _ & BM & _). destruct ST as (_ & _ & NC & _).
  unfold powered, p_of. cbn [p_K p_nc p_lk p_N p_H p_phi p_dphi].
  split; [exact BK|]. split; [exact NC|]. split; [exact LK|]. exists (umask b), (b_N b), (b_H b), ph, dp.
  repeat (split; [first [exact BM|exact BN|exact BH|exact F1|exact F2|reflexivity]|]). reflexivity.
Qed.
Lemma fields_frame s s' ph dp : fields s ph dp -> (forall k, In k ["phi"; "dphidt"; "dphidN"] -> dict_get k s' = dict_get k s) -> fields s' ph dp.
Proof.
  unfold fields, arr. intros H F. rewrite has_key_get, (F "dphidt") by inl. rewrite <- has_key_get. rewrite (F "phi") by inl.
  destruct (has_key "dphidt" s); rewrite F by inl; exact H.
Qed.
(** the spectrum after a calibration refers to that calibration *)
Theorem calibrate_full C S q a s b o ph dp : consts_ok C -> sane a -> background s b -> ca_background a = None ->
  pure_first C a (a_K q) b = Ok o -> fields s ph dp -> (3 <= o_k (ca_opts a))%nat ->
  match spl_val C S q (ca_approx a) (ca_order a) (ca_opts a) (p_of C b o ph dp) with
  | Raise e => snd (calibrate_scale_factor C S q a s) = Raise e
  | Ok None => True
  | Ok (Some v) => exists s' w kn, calibrate_scale_factor C S q a s = (s', Ok w) /\ calibrated C s' b o /\ fields s' ph dp /\ powered s' (p_of C b o ph dp) /\
      v = (VSpl (o_k (ca_opts a)) (o_ext (ca_opts a)) (fst kn), VSpl (o_k (ca_opts a)) (o_ext (ca_opts a)) (snd kn)) /\
      has_params C S s' (ca_opts a) kn /\ has_spl s s' (Some v) /\ has_closures C S q (ca_approx a) (ca_opts a) (p_of C b o ph dp) s' /\
      w = (if flt (o_dn o) (Fin 0) then [NegativeReheating] else if flt (Fin (o_N0 o)) (fadd (o_nreh o) (Fin (o_dc o))) then [ReheatingAfterToday] else [])
  end.
Proof.
  intros HC HA HB HN EP HF H3. pose proof (calibrate_run C S q a s b HC HA HB HN) as R. rewrite EP in R. destruct R as (s1 & w & P & W & F & EQ).
  assert (HF1 : fields s1 ph dp). { apply (fields_frame s); [exact HF|]. intros k I. apply F. revert k I. apply Forall_forall. repeat constructor; unfold calib_attrs; ni. }
  pose proof (calibrated_powered C s1 b o ph dp P HF1) as PW.
  pose proof (derive_run C S q (ca_approx a) (ca_order a) (ca_opts a) s1 _ PW H3) as D.
  destruct (spl_val C S q (ca_approx a) (ca_order a) (ca_opts a) (p_of C b o ph dp)) as [[v|]|e]; [|exact I|].
  - destruct D as (s2 & kn & E2 & Ev & HPa & HS & HCl). rewrite EQ. unfold bindM. rewrite E2. exists s2, w, kn. split; [reflexivity|].
    pose proof (touches_derive C S q (ca_approx a) (ca_order a) (ca_opts a) _ _ _ E2) as T.
    assert (P2 : calibrated C s2 b o). { eapply calibrated_frame; [exact P|]. intros k I. apply T, keep_not_power, I. }
    split; [exact P2|].
    assert (F2 : fields s2 ph dp). { apply (fields_frame s1); [exact HF1|]. intros k I. apply T. revert k I. apply Forall_forall. unfold power_attrs, derived_attrs. repeat constructor; cbn [app]; ni. }
    split; [exact F2|]. split; [apply calibrated_powered; assumption|]. split; [exact Ev|]. split; [exact HPa|]. split; [exact HS|]. split; [exact HCl|exact W].
  - rewrite EQ. unfold bindM. destruct (derive_approx_power C S q (ca_approx a) (ca_order a) (ca_opts a) s1) as [s2 r]. cbn [snd] in D. subst r. reflexivity.
Qed.

(** splines that exist *)
Definition accepting (S : splines) : Prop := forall k l, spl_accept S k l = true.
Lemma buildR_accept S o kn : accepting S -> exists v, buildR S o kn = Ok v.
Proof. intros A. unfold buildR. rewrite !A. eauto. Qed.
Lemma spl_val_CGS C S q o p n : accepting S -> (n <= 3)%nat -> exists v, spl_val C S q "CGS" (Some (Z.of_nat n)) o p = Ok (Some v).
Proof.
  intros A Hn. unfold spl_val. cbn [String.eqb Ascii.eqb Bool.eqb]. unfold vals4, cgs_val.
  destruct (buildR_accept S o (log_knots (p_lk p) (cgs_Ps C q p 0) (cgs_Pt C q p 0)) A) as [v0 ->].
  destruct (buildR_accept S o (log_knots (p_lk p) (cgs_Ps C q p 1) (cgs_Pt C q p 1)) A) as [v1 ->].
  destruct (buildR_accept S o (log_knots (p_lk p) (cgs_Ps C q p 2) (cgs_Pt C q p 2)) A) as [v2 ->].
  destruct (buildR_accept S o (log_knots (p_lk p) (cgs_Ps C q p 3) (cgs_Pt C q p 3)) A) as [v3 ->].
  cbn [bind pick]. destruct n as [|[|[|[|n]]]]; try lia; eexists; reflexivity.
Qed.
Theorem calibrate_succeeds C S q a s b o ph dp n : consts_ok C -> sane a -> background s b -> ca_background a = None ->
  pure_first C a (a_K q) b = Ok o -> fields s ph dp -> (3 <= o_k (ca_opts a))%nat -> accepting S ->
  ca_approx a = "CGS" -> ca_order a = Some (Z.of_nat n) -> (n <= 3)%nat ->
  exists s' w, calibrate_scale_factor C S q a s = (s', Ok w) /\ calibrated C s' b o /\ fields s' ph dp.
Proof.
  intros HC HA HB HN EP HF H3 AC EA EO Hn. pose proof (calibrate_full C S q a s b o ph dp HC HA HB HN EP HF H3) as R.
  rewrite EA, EO in R. destruct (spl_val_CGS C S q (ca_opts a) (p_of C b o ph dp) n AC Hn) as [v Ev]. rewrite Ev in R.
  destruct R as (s' & w & kn & E & P & F & _). eauto.
Qed.

(** ** an example object *)
Definition exC : consts := mkconsts 1 1 1 1 1 1 1 1 0 1.
Definition exS : splines := mksplines (fun _ _ => true) (fun _ _ _ _ _ => 0).
Lemma exC_ok : consts_ok exC. Proof. unfold consts_ok, exC; cbn; lra. Qed.
Lemma exS_ok : accepting exS. Proof. intros k l. reflexivity. Qed.
(** four samples N = 0, 1, 2, 3 with H = 1 inside an inflating phase from N = -1 to N = 4 *)
Definition exb (K : R) : bg := mkbg K [0; 1; 2; 3] [1; 1; 1; 1] [true; true; true; true] (-1) 4 1 1 1.
Definition exs (K : R) : attrs :=
  [("K", VF (Fin K)); ("_N", VA (map Fin [0; 1; 2; 3])); ("H", VA (map Fin [1; 1; 1; 1])); ("_logaH", VA (map Fin (logaH (exb K))));
   ("inflation_mask", VB [true; true; true; true]); ("_N_beg", VF (Fin (-1))); ("_N_end", VF (Fin 4)); ("N_tot", VF (Fin (4 - -1)));
   ("H_end", VF (Fin 1)); ("V_end", VF (Fin 1)); ("_logaH_beg", VF (Fin (-1 + ln 1))); ("_logaH_end", VF (Fin (4 + ln 1)));
   ("phi", VA (map Fin [4; 3; 2; 1])); ("dphidt", VA (map Fin [1/2; 1/2; 1/2; 1/2]))].
Lemma exs_bg K : background (exs K) (exb K).
Proof. unfold background, scal, arr. repeat (split; [first [reflexivity | cbn; lra | cbn; repeat constructor; lra]|]). cbn. repeat constructor; cbn; lra. Qed.
Lemma exs_fields K : fields (exs K) [4; 3; 2; 1] [1/2; 1/2; 1/2; 1/2].
Proof. split; reflexivity. Qed.
Lemma exb_logaH K : logaH (exb K) = [0; 1; 2; 3].
Proof. unfold logaH, exb. cbn. rewrite ln_1. repeat f_equal; lra. Qed.
Lemma exb_maskedL K : maskedL (exb K) = [0; 1; 2; 3].
Proof. unfold maskedL. rewrite exb_logaH. reflexivity. Qed.
Lemma exb_umask K : umask (exb K) = [true; true; true; true].
Proof.
  unfold umask. rewrite exb_logaH. cbn [exb b_mask map first_occ existsb negb zipw andb]. unfold same_fl. cbn [feq isnan].
  repeat match goal with |- context [Req_EM_T ?x ?y] => destruct (Req_EM_T x y); [exfalso; lra|] end. reflexivity.
Qed.
Lemma exb_maskedL' K : maskedL (remask (exb K)) = [0; 1; 2; 3].
Proof. unfold maskedL. change (b_mask (remask (exb K))) with (umask (exb K)). rewrite exb_umask. change (logaH (remask (exb K))) with (logaH (exb K)). rewrite exb_logaH. reflexivity. Qed.
Lemma exb_maskedN' K : maskedN (remask (exb K)) = [0; 1; 2; 3].
Proof. unfold maskedN. change (b_mask (remask (exb K))) with (umask (exb K)). rewrite exb_umask. reflexivity. Qed.
Lemma ex_interp x : 0 <= x <= 3 -> interp1d [(0, 0); (1, 1); (2, 2); (3, 3)] x = Ok x.
Proof.
  intros H. unfold interp1d.
  assert (SO : sort_x [(0, 0); (1, 1); (2, 2); (3, 3)] = [(0, 0); (1, 1); (2, 2); (3, 3)]).
  { cbn [sort_x]. repeat (cbn [insert_x fst]; match goal with |- context [Rle_dec ?a ?b] => destruct (Rle_dec a b); [|exfalso; lra] end). reflexivity. }
  rewrite SO. cbn [last fst]. destruct (Rlt_dec x 0); [lra|]. destruct (Rlt_dec 3 x); [lra|]. cbn [seg_value].
  destruct (Rle_dec x 1); [f_equal; field|]. destruct (Rle_dec x 2); f_equal; field.
Qed.
