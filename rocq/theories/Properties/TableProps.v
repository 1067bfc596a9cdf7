(** The tabulated approximate spectra and what the user reads off them: C93, C94. *)
From Coq Require Import Reals List String ZArith Bool Lra Lia.
From Verif Require Import Base Model.Equations Model.Background Model.Float Model.Solution Model.Interp Model.State Model.Reheating
  Model.ApproxPower Model.Calibrate Spec.CalibSpec Proofs.BaseLemmas Proofs.FloatLemmas Proofs.DictLemmas Proofs.StateLemmas Proofs.CalibFrame
  Proofs.CalibPure Proofs.CalibPure2 Proofs.CalibPure3 Proofs.CalibRun Proofs.PowerRun Proofs.CalibResult Proofs.CalibTotal Proofs.CalibErrors Proofs.PowerHist
  Proofs.TableRun Properties.CalibProps Properties.CalibProps2 Properties.PowerProps.
Import ListNotations.
Open Scope R_scope.
Open Scope string_scope.

Lemma map_Fin_inj l : forall m, map Fin l = map Fin m -> l = m.
Proof. induction l as [|x l IH]; intros [|y m] H; try discriminate; [reflexivity|]. injection H as -> H. f_equal. apply IH, H. Qed.
Lemma arr_unique s key l m : arr s key l -> arr s key m -> l = m.
Proof. unfold arr. intros A B. rewrite A in B. injection B as B. apply map_Fin_inj, B. Qed.
(** what a successful calibration leaves *)
Lemma calibrated_table C S q a s b ph dp s1 w :
  consts_ok C -> sane a -> background s b -> fields s ph dp -> ca_background a = None -> (3 <= o_k (ca_opts a))%nat ->
  documented (ca_approx a) (ca_order a) -> calibrate_scale_factor C S q a s = (s1, Ok w) ->
  exists o Ps Pt, pure_first C a (a_K q) b = Ok o /\ calibrated C s1 b o /\ fields s1 ph dp /\
    let p := p_of C b o ph dp in
    has_table s1 Ps Pt /\ is_table C q (ca_approx a) (ca_order a) p Ps Pt /\
    let kn := log_knots (p_lk p) Ps Pt in
    spl_val C S q (ca_approx a) (ca_order a) (ca_opts a) p =
      Ok (Some (VSpl (o_k (ca_opts a)) (o_ext (ca_opts a)) (fst kn), VSpl (o_k (ca_opts a)) (o_ext (ca_opts a)) (snd kn))) /\
    has_params C S s1 (ca_opts a) kn.
Proof.
  intros HC HA HB HF HN H3 HD E. pose proof (calibrate_run C S q a s b HC HA HB HN) as R.
  destruct (calibrate_result C S q a s b s1 w HC HA HB HN E) as (o & EP & CAL & _ & FRS). rewrite EP in R.
  destruct R as (sm & w' & CM & _ & FR & EQ).
  assert (HFm : fields sm ph dp). { apply (fields_frame s); [exact HF|]. intros kk I. apply FR. revert kk I. apply Forall_forall. repeat constructor; unfold calib_attrs; ni. }
  assert (PWm : powered sm (p_of C b o ph dp)) by (apply calibrated_powered; assumption).
  assert (Ed : exists u, derive_approx_power C S q (ca_approx a) (ca_order a) (ca_opts a) sm = (s1, Ok u)).
  { rewrite EQ in E. unfold bindM in E. destruct (derive_approx_power _ _ _ _ _ _ sm) as [s' [u|e]]; [|discriminate]. injection E as <- _. eauto. }
  destruct Ed as [u Ed]. destruct (table_run C S q _ _ _ sm _ s1 u PWm H3 HD Ed) as (Ps & Pt & HT & IT & ES & HPa).
  exists o, Ps, Pt. split; [exact EP|]. split; [exact CAL|]. split.
  { apply (fields_frame s); [exact HF|]. intros kk I. apply FRS. revert kk I. apply Forall_forall. repeat constructor; unfold calib_attrs, power_attrs, derived_attrs; ni. }
  cbv zeta. auto.
Qed.
Lemma p_lk_nodup C s b o ph dp : background s b -> NoDup (p_lk (p_of C b o ph dp)).
Proof.
  intros HB. unfold p_of. cbn [p_lk]. apply FinFun.Injective_map_NoDup; [intros x y H; lra|].
  assert (L1 : List.length (b_H b) = List.length (b_N b)) by apply HB. assert (L2 : List.length (b_mask b) = List.length (b_N b)) by apply HB.
  assert (L3 : List.length (logaH b) = List.length (b_N b)) by (apply logaH_length, L1).
  apply (first_occ_select [] (logaH b) (b_mask b)). congruence.
Qed.
Lemma calibrated_k C s b o ph dp : calibrated C s b o -> arr s "k_iMpc" (map exp (p_lk (p_of C b o ph dp))).
Proof. intros (_ & _ & _ & _ & _ & _ & _ & K & _). exact K. Qed.

(** ** C93: the spectra pass through the table *)
(** After a successful calibration and any further calls, the spectrum function of the method and order the calibration used,
    evaluated at a wavenumber of the grid k_iMpc, returns the entry of P_scalar_approx (P_tensor_approx) there, wherever both
    entries are positive. *)
Theorem C93_spectrum_on_grid : forall C S q a s b ph dp s1 w acts,
  consts_ok C -> sane a -> background s b -> fields s ph dp -> ca_background a = None -> (3 <= o_k (ca_opts a))%nat ->
  documented (ca_approx a) (ca_order a) -> absent ["P_s_approx_ARBDS"; "P_t_approx_ARBDS"] s -> interpolating S ->
  calibrate_scale_factor C S q a s = (s1, Ok w) ->
  let s2 := after C S q (ca_opts a) acts s1 in
  exists ks Ps Pt, arr s1 "k_iMpc" ks /\ arr s1 "P_scalar_approx" Ps /\ arr s1 "P_tensor_approx" Pt /\
    forall i k P T, nth_error ks i = Some k -> nth_error Ps i = Some P -> nth_error Pt i = Some T -> 0 < P -> 0 < T ->
      snd (query C S q (ca_opts a) false k (ca_approx a) (ca_order a) s2) = Ok P /\
      snd (query C S q (ca_opts a) true k (ca_approx a) (ca_order a) s2) = Ok T.
Proof.
  intros C S q a s b ph dp s1 w acts HC HA HB HF HN H3 HD HAB IN E s2.
  destruct (calibrated_table C S q a s b ph dp s1 w HC HA HB HF HN H3 HD E) as (o & Ps & Pt & EP & CAL & _ & [T1 T2] & _ & ES & _).
  set (p := p_of C b o ph dp) in *. exists (map exp (p_lk p)), Ps, Pt. split; [apply calibrated_k, CAL|]. split; [exact T1|]. split; [exact T2|].
  intros i k P T Ek EPs EPt PP PT.
  destruct (calibrated_inv C S q a s b ph dp s1 w (ca_approx a) (ca_order a) HC HA HB HF HN H3 HD HAB E HD ltac:(auto)) as (o' & EP' & _ & _ & HI1).
  rewrite EP in EP'. injection EP' as <-. fold p in HI1.
  assert (HI2 : inv C S q (ca_opts a) p (ca_approx a) s2) by (apply robust_after; [eapply inv_robust; exact HD|exact HI1]).
  rewrite nth_error_map in Ek. destruct (nth_error (p_lk p) i) as [x|] eqn:EX; [|discriminate]. injection Ek as <-.
  destruct (log_knots_in (p_lk p) Ps Pt i x P T EX EPs EPt PP PT) as [I1 I2].
  destruct (log_knots_nodup (p_lk p) (p_lk_nodup C s b o ph dp HB) Ps Pt) as [N1 N2].
  rewrite !(query_value C S q (ca_opts a) p (ca_approx a) (ca_order a) _ _ _ HD HI2). unfold value. rewrite ES. cbn [bindR pv fst snd]. rewrite ln_exp.
  rewrite (IN _ _ _ _ _ N1 I1), (IN _ _ _ _ _ N2 I2), !exp_ln by assumption. split; reflexivity.
Qed.

(** ** what the table contains *)
(** quantities of the samples in use after the calibration *)
Section Samples.
Variables (mask : list bool) (b : bg) (ph dp : list R).
Definition sample_at (i : nat) (N H phi dphi : R) : Prop :=
  nth_error (select mask (b_N b)) i = Some N /\ nth_error (select mask (b_H b)) i = Some H /\
  nth_error (select mask ph) i = Some phi /\ nth_error (select mask dp) i = Some dphi.
End Samples.
Lemma flows_nth q K : forall Ns Hs ph dp i N H phi dphi, nth_error Ns i = Some N -> nth_error Hs i = Some H -> nth_error ph i = Some phi -> nth_error dp i = Some dphi ->
  nth_error (flows q K Ns Hs ph dp) i = Some (flow_of q K N H phi dphi).
Proof.
  induction Ns as [|x Ns IH]; intros [|h Hs] [|f ph] [|d dp] [|i] N H phi dphi; cbn [nth_error flows]; try discriminate.
  - intros [= ->] [= ->] [= ->] [= ->]. reflexivity.
  - apply IH.
Qed.
Lemma zipw_nth {A B D} (f : A -> B -> D) : forall l m i x y, nth_error l i = Some x -> nth_error m i = Some y -> nth_error (zipw f l m) i = Some (f x y).
Proof. induction l as [|a l IH]; intros [|c m] [|i] x y; cbn [nth_error zipw]; try discriminate; [intros [= ->] [= ->]; reflexivity|apply IH]. Qed.

(** CGS and STE: entry i of the tables is the power of the formula at sample i, whose wavenumber is entry i of k_iMpc *)
Theorem C93_local_table : forall C S q a s b ph dp s1 w,
  consts_ok C -> sane a -> background s b -> fields s ph dp -> ca_background a = None -> (3 <= o_k (ca_opts a))%nat ->
  documented (ca_approx a) (ca_order a) -> calibrate_scale_factor C S q a s = (s1, Ok w) ->
  exists mask ks Ps Pt cs, dict_get "inflation_mask" s1 = Some (VB mask) /\ arr s1 "k_iMpc" ks /\ arr s1 "P_scalar_approx" Ps /\ arr s1 "P_tensor_approx" Pt /\
    arr s1 "cHH_Mpc" cs /\
    forall i N H phi dphi, sample_at mask b ph dp i N H phi dphi ->
      let f := flow_of q (b_K b) N H phi dphi in
      let e1 := fe1 f in
      (exists c, nth_error (select mask cs) i = Some c /\ nth_error ks i = Some (1 / c)) /\
      (forall n, ca_approx a = "CGS" -> ca_order a = Some (Z.of_nat n) ->
         nth_error Ps i = Some (H^2 / (8 * PI^2 * e1) * cgs_s C f n) /\ nth_error Pt i = Some (2 * (H / PI)^2 * cgs_t C f n)) /\
      (ca_approx a = "STE" ->
         nth_error Ps i = Some (H^2 / (8 * PI^2 * e1) * ste_as0 (llms_C C) e1 (fe2 f) (fe3 f)) /\
         nth_error Pt i = Some (2 * (H / PI)^2 * ste_at0 (llms_C C) e1 (fe2 f))).
Proof.
  intros C S q a s b ph dp s1 w HC HA HB HF HN H3 HD E.
  destruct (calibrated_table C S q a s b ph dp s1 w HC HA HB HF HN H3 HD E) as (o & Ps & Pt & EP & CAL & _ & [T1 T2] & IT & _ & _).
  set (p := p_of C b o ph dp) in *.
  destruct (C38_wavenumbers C S q a s b s1 w HC HA HB HN E) as (mask & ks & ki & cs & ls & M1 & K1 & _ & C1 & _ & KC & _ & KI).
  exists mask, ks, Ps, Pt, cs. split; [exact M1|]. split; [exact K1|]. split; [exact T1|]. split; [exact T2|]. split; [exact C1|].
  assert (EM : mask = umask b).
  { destruct CAL as ((_ & BG & _) & _). destruct BG as (_ & _ & _ & _ & BM & _). cbn [remask b_mask] in BM. rewrite M1 in BM. injection BM as ->. reflexivity. }
  subst mask. intros i N H phi dphi (S1 & S2 & S3 & S4). cbv zeta.
  assert (FL : nth_error (pflows q p) i = Some (flow_of q (b_K b) N H phi dphi)) by (apply flows_nth; assumption).
  assert (HH : nth_error (p_H p) i = Some H) by exact S2.
  split; [|split].
  - assert (LC : exists c, nth_error (select (umask b) cs) i = Some c).
    { assert (EC : cs = zipw (fun n h => cHHv C (o_a0 o) (n + o_dc o) h) (b_N b) (b_H b)).
      { destruct CAL as (_ & _ & _ & _ & _ & _ & _ & _ & _ & CC & _). unfold arr in *. rewrite C1 in CC. injection CC as CC. apply map_Fin_inj in CC. exact CC. }
      subst cs. clear - S1 S2. revert i S1 S2. generalize (b_H b) (b_N b). induction (umask b) as [|[|] m IH]; intros lh ln i S1 S2.
      - destruct ln; destruct i; discriminate S1.
      - destruct ln as [|n ln]; [destruct i; discriminate S1|]. destruct lh as [|h lh]; [destruct i; discriminate S2|]. cbn [select zipw] in *. destruct i as [|i]; [eexists; reflexivity|]. cbn [nth_error] in *. eapply IH; eassumption.
      - destruct ln as [|n ln]; [destruct i; discriminate S1|]. destruct lh as [|h lh]; [destruct i; discriminate S2|]. cbn [select zipw] in *. eapply IH; eassumption. }
    destruct LC as (c & Ec). exists c. split; [exact Ec|]. rewrite KC, nth_error_map, Ec. reflexivity.
  - intros n EA EO. destruct IT as (IT & _). destruct (IT EA) as (n' & EO' & _ & -> & ->). rewrite EO in EO'. injection EO' as EO'. apply Nat2Z.inj in EO'. subst n'.
    unfold cgs_Ps, cgs_Pt. rewrite !(zipw_nth _ _ _ i _ _ HH FL). split; reflexivity.
  - intros EA. destruct IT as (_ & IT & _). destruct (IT EA) as [-> ->]. unfold ste_Ps, ste_Pt. rewrite !(zipw_nth _ _ _ i _ _ HH FL). split; reflexivity.
Qed.

(** ** around the pivot: LLMS and ARBDS *)
(** value at the crossing of the pivot scale of a quantity given per sample (linear interpolation in _N) *)
Definition at_pivot (mask : list bool) (b : bg) (nc : R) (vs : list R) (v : R) : Prop :=
  interp1d (combine (select mask (b_N b)) vs) nc = Ok v.
(** Hubble-flow parameters per sample in use *)
Definition flow_samples (q : aeqs) (mask : list bool) (b : bg) (ph dp : list R) : list flow :=
  flows q (b_K b) (select mask (b_N b)) (select mask (b_H b)) (select mask ph) (select mask dp).
Lemma at_nc_interp p vs v : at_nc p vs = Ok v -> interp1d (combine (p_N p) vs) (p_nc p) = Ok v.
Proof. unfold at_nc. rewrite interp_fl_fin. destruct (interp1d _ _); [|discriminate]. cbn [bind as_R]. congruence. Qed.
Lemma cross4_interp q p H e1 e2 e3 : cross4 q p = Ok (H, e1, e2, e3) ->
  interp1d (combine (p_N p) (p_H p)) (p_nc p) = Ok H /\ interp1d (combine (p_N p) (map fe1 (pflows q p))) (p_nc p) = Ok e1 /\
  interp1d (combine (p_N p) (map fe2 (pflows q p))) (p_nc p) = Ok e2 /\ interp1d (combine (p_N p) (map fe3 (pflows q p))) (p_nc p) = Ok e3.
Proof.
  unfold cross4. destruct (at_nc p (p_H p)) eqn:E0; [|discriminate]. cbn [bind]. destruct (at_nc p (map fe1 _)) eqn:E1; [|discriminate]. cbn [bind].
  destruct (at_nc p (map fe2 _)) eqn:E2; [|discriminate]. cbn [bind]. destruct (at_nc p (map fe3 _)) eqn:E3; [|discriminate]. cbn [bind].
  intros [= -> -> -> ->]. auto using at_nc_interp.
Qed.
Lemma calibrated_mask C s b o : calibrated C s b o -> dict_get "inflation_mask" s = Some (VB (umask b)).
Proof. intros ((_ & BG & _) & _). destruct BG as (_ & _ & _ & _ & BM & _). exact BM. Qed.
Lemma calibrated_nc C s b o : calibrated C s b o -> scal s "_N_cross" (o_nc o).
Proof. intros (((_ & _ & NC & _) & _) & _). exact NC. Qed.

Theorem C93_pivot_table : forall C S q a s b ph dp s1 w,
  consts_ok C -> sane a -> background s b -> fields s ph dp -> ca_background a = None -> (3 <= o_k (ca_opts a))%nat ->
  ca_approx a = "LLMS" \/ (ca_approx a = "ARBDS" /\ exists n, ca_order a = Some n /\ (1 <= n <= 3)%Z) ->
  calibrate_scale_factor C S q a s = (s1, Ok w) ->
  exists mask ks Ps Pt nc H e1 e2 e3,
    dict_get "inflation_mask" s1 = Some (VB mask) /\ arr s1 "k_iMpc" ks /\ arr s1 "P_scalar_approx" Ps /\ arr s1 "P_tensor_approx" Pt /\
    scal s1 "_N_cross" nc /\ let fs := flow_samples q mask b ph dp in
    at_pivot mask b nc (select mask (b_H b)) H /\ at_pivot mask b nc (map fe1 fs) e1 /\ at_pivot mask b nc (map fe2 fs) e2 /\ at_pivot mask b nc (map fe3 fs) e3 /\
    forall i k, nth_error ks i = Some k ->
      let L := ln (k / K_STAR C) in
      (ca_approx a = "LLMS" -> nth_error Ps i = Some (exp (llms_logP_s (llms_C C) e1 e2 e3 H L)) /\ nth_error Pt i = Some (exp (llms_logP_t (llms_C C) e1 e2 H L))) /\
      (forall n, ca_approx a = "ARBDS" -> ca_order a = Some (Z.of_nat n) ->
         nth_error Ps i = Some (H^2 / (8 * PI^2 * e1) * arbds_s (arbds_alpha C) (arbds_Z C) e1 e2 e3 0 n L) /\
         nth_error Pt i = Some (2 * (H / PI)^2 * arbds_t (arbds_alpha C) (arbds_Z C) e1 e2 e3 n L)).
Proof.
  intros C S q a s b ph dp s1 w HC HA HB HF HN H3 HM E.
  assert (HD : documented (ca_approx a) (ca_order a)) by (destruct HM as [M|M]; [left; exact M|right; right; right; exact M]).
  destruct (calibrated_table C S q a s b ph dp s1 w HC HA HB HF HN H3 HD E) as (o & Ps & Pt & EP & CAL & _ & [T1 T2] & IT & _ & _).
  set (p := p_of C b o ph dp) in *.
  assert (X : exists H e1 e2 e3, cross4 q p = Ok (H, e1, e2, e3)).
  { destruct IT as (_ & _ & I1 & I2). destruct HM as [M|[M _]]; [destruct (I1 M) as (H & e1 & e2 & e3 & EC & _)|destruct (I2 M) as (H & e1 & e2 & e3 & n & EC & _)]; eauto. }
  destruct X as (H & e1 & e2 & e3 & EC). destruct (cross4_interp q p _ _ _ _ EC) as (X0 & X1 & X2 & X3).
  exists (umask b), (map exp (p_lk p)), Ps, Pt, (o_nc o), H, e1, e2, e3. split; [apply (calibrated_mask C _ _ o), CAL|]. split; [apply calibrated_k, CAL|].
  split; [exact T1|]. split; [exact T2|]. split; [apply (calibrated_nc C _ b), CAL|]. cbv zeta.
  split; [exact X0|]. split; [exact X1|]. split; [exact X2|]. split; [exact X3|].
  intros i k Ek. rewrite nth_error_map in Ek. destruct (nth_error (p_lk p) i) as [x|] eqn:EX; [|discriminate]. injection Ek as <-.
  assert (EL : ln (exp x / K_STAR C) = x - ln (K_STAR C)).
  { unfold Rdiv. rewrite ln_mult by (try apply exp_pos; apply Rinv_0_lt_compat; apply HC). rewrite ln_exp, ln_Rinv by apply HC. ring. }
  assert (LKi : nth_error (LK C (p_lk p)) i = Some (x - ln (K_STAR C))) by (unfold LK; rewrite nth_error_map, EX; reflexivity).
  cbv zeta. rewrite EL. split.
  - intros M. destruct IT as (_ & _ & I1 & _). destruct (I1 M) as (H' & e1' & e2' & e3' & EC' & -> & ->). rewrite EC in EC'. injection EC' as <- <- <- <-.
    unfold llms_Ps, llms_Pt. rewrite !nth_error_map, LKi. split; reflexivity.
  - intros n M EO. destruct IT as (_ & _ & _ & I2). destruct (I2 M) as (H' & e1' & e2' & e3' & n' & EC' & EO' & _ & -> & ->). rewrite EC in EC'. injection EC' as <- <- <- <-.
    rewrite EO in EO'. injection EO' as EO'. apply Nat2Z.inj in EO'. subst n'. unfold arbds_Ps, arbds_Pt. rewrite !nth_error_map, LKi. split; reflexivity.
Qed.

(** ** the derived parameters when the pivot scale is on the grid *)
Theorem C93_pivot_on_grid : forall C S q a s b ph dp s1 w,
  consts_ok C -> sane a -> background s b -> fields s ph dp -> ca_background a = None -> (3 <= o_k (ca_opts a))%nat ->
  documented (ca_approx a) (ca_order a) -> interpolating S -> calibrate_scale_factor C S q a s = (s1, Ok w) ->
  exists ks Ps Pt, arr s1 "k_iMpc" ks /\ arr s1 "P_scalar_approx" Ps /\ arr s1 "P_tensor_approx" Pt /\
    forall i P T, nth_error ks i = Some (K_STAR C) -> nth_error Ps i = Some P -> nth_error Pt i = Some T -> 0 < P -> 0 < T ->
      scal s1 "A_s" P /\ scal s1 "A_t" T /\ scal s1 "r" (T / P).
Proof.
  intros C S q a s b ph dp s1 w HC HA HB HF HN H3 HD IN E.
  destruct (calibrated_table C S q a s b ph dp s1 w HC HA HB HF HN H3 HD E) as (o & Ps & Pt & EP & CAL & _ & [T1 T2] & _ & _ & HPa).
  set (p := p_of C b o ph dp) in *. exists (map exp (p_lk p)), Ps, Pt. split; [apply calibrated_k, CAL|]. split; [exact T1|]. split; [exact T2|].
  intros i P T Ek EPs EPt PP PT. rewrite nth_error_map in Ek. destruct (nth_error (p_lk p) i) as [x|] eqn:EX; [|discriminate]. injection Ek as Ek.
  destruct (log_knots_in (p_lk p) Ps Pt i x P T EX EPs EPt PP PT) as [I1 I2].
  destruct (log_knots_nodup (p_lk p) (p_lk_nodup C s b o ph dp HB) Ps Pt) as [N1 N2].
  destruct HPa as (A & _ & _ & _ & B & _ & D). rewrite <- Ek, ln_exp in *. rewrite (IN _ _ _ _ _ N1 I1) in *. rewrite (IN _ _ _ _ _ N2 I2) in *.
  rewrite !exp_ln in * by assumption. auto.
Qed.
(** leading order: r = 16 epsilon_1 at the sample where the pivot scale crosses the horizon *)
Theorem C93_consistency : forall C S q a s b ph dp s1 w,
  consts_ok C -> sane a -> background s b -> fields s ph dp -> ca_background a = None -> (3 <= o_k (ca_opts a))%nat ->
  ca_approx a = "CGS" -> ca_order a = Some 0%Z -> interpolating S -> calibrate_scale_factor C S q a s = (s1, Ok w) ->
  exists mask ks, dict_get "inflation_mask" s1 = Some (VB mask) /\ arr s1 "k_iMpc" ks /\
    forall i N H phi dphi, nth_error ks i = Some (K_STAR C) -> sample_at mask b ph dp i N H phi dphi ->
      let e1 := fe1 (flow_of q (b_K b) N H phi dphi) in
      0 < e1 -> 0 < H -> scal s1 "A_s" (H^2 / (8 * PI^2 * e1)) /\ scal s1 "r" (16 * e1).
Proof.
  intros C S q a s b ph dp s1 w HC HA HB HF HN H3 HM HO IN E.
  assert (HD : documented (ca_approx a) (ca_order a)) by (right; right; left; split; [exact HM|exists 0%Z; split; [exact HO|lia]]).
  destruct (C93_pivot_on_grid C S q a s b ph dp s1 w HC HA HB HF HN H3 HD IN E) as (ks & Ps & Pt & K1 & T1 & T2 & PV).
  destruct (C93_local_table C S q a s b ph dp s1 w HC HA HB HF HN H3 HD E) as (mask & ks' & Ps' & Pt' & cs & M & K1' & T1' & T2' & _ & LT).
  assert (U : forall key l m, arr s1 key l -> arr s1 key m -> l = m).
  { intros key l m A B. unfold arr in *. rewrite A in B. injection B as B. apply map_Fin_inj, B. }
  rewrite <- (U _ _ _ K1 K1') in *. rewrite <- (U _ _ _ T1 T1') in *. rewrite <- (U _ _ _ T2 T2') in *.
  exists mask, ks. split; [exact M|]. split; [exact K1|]. intros i N H phi dphi Ek SA. cbv zeta. intros He HH.
  destruct (LT i N H phi dphi SA) as (_ & LG & _). destruct (LG 0%nat HM HO) as [EPs EPt]. cbn [cgs_s cgs_t] in EPs, EPt. rewrite Rmult_1_r in *.
  set (e1 := fe1 _) in *. pose proof PI_RGT_0 as PP.
  assert (P1 : 0 < H^2 / (8 * PI^2 * e1)) by (apply Rdiv_lt_0_compat; [nra|]; apply Rmult_lt_0_compat; [nra|exact He]).
  assert (P2 : 0 < 2 * (H / PI)^2) by (assert (0 < H / PI) by (apply Rdiv_lt_0_compat; assumption); nra).
  destruct (PV i _ _ Ek EPs EPt P1 P2) as (A & _ & D). split; [exact A|].
  replace (16 * e1) with (2 * (H / PI)^2 / (H^2 / (8 * PI^2 * e1))); [exact D|]. field. repeat split; lra.
Qed.

(** ** C94: the derived parameters of the LLMS method are its published expressions at the pivot scale *)
(** a spline of degree at least 2 through more than [degree] points of a parabola is that parabola between the outermost points
    (uniqueness of the interpolating spline; scipy's [derivatives] then gives its Taylor coefficients) *)
Definition exact_on_parabolas (S : splines) : Prop := forall k ext l A B D x0 x,
  (2 <= k)%nat -> spl_accept S k l = true -> NoDup (map fst l) -> (forall z y, In (z, y) l -> y = A + B * (z - x0) + D * (z - x0)^2) ->
  (exists z, In z (map fst l) /\ z <= x) -> (exists z, In z (map fst l) /\ x <= z) ->
  spl_eval S k ext l 0 x = A + B * (x - x0) + D * (x - x0)^2 /\ spl_eval S k ext l 1 x = B + 2 * D * (x - x0) /\
  spl_eval S k ext l 2 x = 2 * D /\ spl_eval S k ext l 3 x = 0.

Lemma in_combine_map {A B} (f : A -> B) l x y : In (x, y) (combine l (map f l)) -> y = f x /\ In x l.
Proof. induction l as [|a l IH]; cbn [map combine In]; [tauto|]. intros [H|H]; [injection H as -> ->; auto|]. destruct (IH H); auto. Qed.
Lemma fst_combine {A B} (l : list A) : forall m : list B, List.length m = List.length l -> map fst (combine l m) = l.
Proof. induction l as [|a l IH]; intros [|c m] H; try discriminate; [reflexivity|]. cbn [combine map fst]. f_equal. apply IH. now injection H. Qed.

Theorem C94_LLMS_parameters : forall C S q a s b ph dp s1 w,
  consts_ok C -> sane a -> background s b -> fields s ph dp -> ca_background a = None -> (3 <= o_k (ca_opts a))%nat ->
  ca_approx a = "LLMS" -> exact_on_parabolas S -> calibrate_scale_factor C S q a s = (s1, Ok w) ->
  (forall ks, arr s1 "k_iMpc" ks -> (exists k, In k ks /\ k <= K_STAR C) /\ (exists k, In k ks /\ K_STAR C <= k)) ->
  exists mask nc H e1 e2 e3, dict_get "inflation_mask" s1 = Some (VB mask) /\ scal s1 "_N_cross" nc /\
    let fs := flow_samples q mask b ph dp in
    at_pivot mask b nc (select mask (b_H b)) H /\ at_pivot mask b nc (map fe1 fs) e1 /\ at_pivot mask b nc (map fe2 fs) e2 /\ at_pivot mask b nc (map fe3 fs) e3 /\
    let c := euler_gamma C + ln 2 - 2 in
    (0 < e1 -> 0 < H -> scal s1 "A_s" (H^2 / (8 * PI^2 * e1) *
       exp (-2 * (c + 1) * e1 - c * e2 + (-2 * c + PI^2 / 2 - 7) * e1^2 + (- c^2 - 3 * c + 7 * PI^2 / 12 - 7) * e1 * e2 + (PI^2 / 8 - 1) * e2^2 + (- c^2 / 2 + PI^2 / 24) * e2 * e3))) /\
    (0 < H -> scal s1 "A_t" (2 * H^2 / PI^2 * exp (-2 * (c + 1) * e1 + (-2 * c + PI^2 / 2 - 7) * e1^2 + (- c^2 - 2 * c + PI^2 / 12 - 2) * e1 * e2))) /\
    scal s1 "n_s" (1 - 2 * e1 - e2 - 2 * e1^2 - (2 * c + 3) * e1 * e2 - c * e2 * e3) /\
    scal s1 "n_run" (-2 * e1 * e2 - e2 * e3) /\ scal s1 "n_runrun" 0 /\
    scal s1 "n_t" (-2 * e1 - 2 * e1^2 - 2 * (c + 1) * e1 * e2).
Proof.
  intros C S q a s b ph dp s1 w HC HA HB HF HN H3 HM EX E RG.
  assert (HD : documented (ca_approx a) (ca_order a)) by (left; exact HM).
  destruct (calibrated_table C S q a s b ph dp s1 w HC HA HB HF HN H3 HD E) as (o & Ps & Pt & EP & CAL & _ & [T1 T2] & IT & ES & HPa).
  set (p := p_of C b o ph dp) in *. destruct IT as (_ & _ & I1 & _). destruct (I1 HM) as (H & e1 & e2 & e3 & EC & -> & ->).
  destruct (cross4_interp q p _ _ _ _ EC) as (X0 & X1 & X2 & X3).
  exists (umask b), (o_nc o), H, e1, e2, e3. split; [apply (calibrated_mask C _ _ o), CAL|]. split; [apply (calibrated_nc C _ b), CAL|]. cbv zeta.
  split; [exact X0|]. split; [exact X1|]. split; [exact X2|]. split; [exact X3|].
  unfold llms_Ps, llms_Pt in HPa, ES. rewrite log_knots_exp in HPa, ES by (unfold LK; rewrite !map_length; reflexivity). cbn [fst snd] in ES.
  assert (AC : spl_accept S (o_k (ca_opts a)) (combine (p_lk p) (map (llms_logP_s (llms_C C) e1 e2 e3 H) (LK C (p_lk p)))) = true /\
               spl_accept S (o_k (ca_opts a)) (combine (p_lk p) (map (llms_logP_t (llms_C C) e1 e2 H) (LK C (p_lk p)))) = true).
  { unfold spl_val in ES. rewrite HM in ES. cbn [String.eqb Ascii.eqb Bool.eqb] in ES. unfold llms_val in ES. rewrite EC in ES. cbn [bind] in ES. unfold buildR in ES. cbn [fst snd] in ES.
    destruct (spl_accept S _ _); [|discriminate]. destruct (spl_accept S _ _); [|discriminate]. auto. }
  destruct AC as [AC1 AC2]. destruct (RG _ (calibrated_k C s1 b o ph dp CAL)) as [(kl & IL & LL) (kh & IH & LH)].
  assert (RL : exists z, In z (p_lk p) /\ z <= ln (K_STAR C)).
  { apply in_map_iff in IL. destruct IL as (z & <- & IZ). exists z. split; [exact IZ|]. rewrite <- (ln_exp z). destruct LL as [LL| ->]; [left; apply ln_increasing; [apply exp_pos|exact LL]|right; reflexivity]. }
  assert (RH : exists z, In z (p_lk p) /\ ln (K_STAR C) <= z).
  { apply in_map_iff in IH. destruct IH as (z & <- & IZ). exists z. split; [exact IZ|]. rewrite <- (ln_exp z). destruct LH as [LH|LH]; [left; apply ln_increasing; [apply HC|exact LH]|right; rewrite LH; reflexivity]. }
  assert (NDl : NoDup (p_lk p)) by (apply (p_lk_nodup C s), HB).
  unfold LK in HPa, AC1, AC2. rewrite !map_map in HPa, AC1, AC2.
  assert (G : forall f A B D, (forall z, f z = A + B * (z - ln (K_STAR C)) + D * (z - ln (K_STAR C))^2) ->
    spl_accept S (o_k (ca_opts a)) (combine (p_lk p) (map f (p_lk p))) = true ->
    let ev j := spl_eval S (o_k (ca_opts a)) (o_ext (ca_opts a)) (combine (p_lk p) (map f (p_lk p))) j (ln (K_STAR C)) in
    ev 0%nat = A /\ ev 1%nat = B /\ ev 2%nat = 2 * D /\ ev 3%nat = 0).
  { intros f A B D FE AC ev. assert (EF : map fst (combine (p_lk p) (map f (p_lk p))) = p_lk p) by (apply fst_combine, map_length).
    destruct (EX (o_k (ca_opts a)) (o_ext (ca_opts a)) (combine (p_lk p) (map f (p_lk p))) A B D (ln (K_STAR C)) (ln (K_STAR C)) ltac:(lia) AC) as (V0 & V1 & V2 & V3); rewrite ?EF; try assumption.
    - intros z y I. apply in_combine_map in I. destruct I as [-> _]. apply FE.
    - unfold ev. rewrite V0, V1, V2, V3. repeat split; ring. }
  pose proof (G (fun x => llms_logP_s (llms_C C) e1 e2 e3 H (x - ln (K_STAR C))) (ln (Ps0 H e1) + llms_bs0 (llms_C C) e1 e2 e3) (llms_ns (llms_C C) e1 e2 e3 - 1) (llms_ns_run e1 e2 e3 / 2) ltac:(intros z; reflexivity) AC1) as G1.
  pose proof (G (fun x => llms_logP_t (llms_C C) e1 e2 H (x - ln (K_STAR C))) (ln (Pt0 H) + llms_bt0 (llms_C C) e1 e2) (llms_nt (llms_C C) e1 e2) (llms_nt_run e1 e2 / 2) ltac:(intros z; reflexivity) AC2) as G2.
  cbv zeta in G1, G2. destruct G1 as (A0 & A1 & A2 & A3). destruct G2 as (B0 & B1 & _ & _).
  unfold has_params in HPa. cbn [fst snd] in HPa. rewrite A0, A1, A2, A3 in HPa. destruct HPa as (P0 & P1 & P2 & P3 & Q0 & Q1 & _).
  rewrite map_map in Q0, Q1. rewrite B0 in Q0. rewrite B1 in Q1.
  pose proof PI_RGT_0 as PP.
  split; [|split; [|split; [|split; [|split]]]].
  - intros He HH. assert (PS : 0 < Ps0 H e1) by (unfold Ps0; apply Rdiv_lt_0_compat; [nra|]; apply Rmult_lt_0_compat; [nra|exact He]).
    rewrite exp_plus, exp_ln in P0 by exact PS. exact P0.
  - intros HH. assert (PS : 0 < Pt0 H) by (unfold Pt0; assert (0 < H / PI) by (apply Rdiv_lt_0_compat; assumption); nra).
    rewrite exp_plus, exp_ln in Q0 by exact PS. unfold Pt0 in Q0. replace (2 * H^2 / PI^2) with (2 * (H / PI)^2) by (field; lra). exact Q0.
  - unfold scal in *. rewrite P1. do 3 f_equal. unfold llms_ns, llms_C. ring.
  - unfold scal in *. rewrite P2. do 3 f_equal. unfold llms_ns_run. field.
  - exact P3.
  - exact Q1.
Qed.

(** ** the hypotheses are met *)
(** an interpolating "spline": the value of the first knot at the point *)
Fixpoint knot_value (l : list (R * R)) (x : R) : R :=
  match l with [] => 0 | (z, y) :: t => if Req_EM_T z x then y else knot_value t x end.
Definition exI : splines := mksplines (fun _ _ => true) (fun _ _ l _ x => knot_value l x).
Lemma exI_accept : accepting exI. Proof. intros k l. reflexivity. Qed.
Lemma exI_interpolating : interpolating exI.
Proof.
  intros k ext l x y. cbn [exI spl_eval]. induction l as [|[z v] l IH]; intros ND I; [destruct I|]. cbn [map fst] in ND. inversion ND as [|? ? NI ND']; subst. cbn [knot_value].
  destruct I as [[= -> ->]|I].
  - destruct (Req_EM_T x x); [reflexivity|contradiction].
  - destruct (Req_EM_T z x) as [->|]; [exfalso; apply NI; apply in_map_iff; exists (x, y); auto|]. apply IH; assumption.
Qed.
Definition exm (ns : R) (me : string) (ord : option Z) : calargs := mkargs (Some "N_star") None None (Some ns) None None None None 100 None me ord default_opts.
Lemma exm_pure ns me ord : 1 <= ns <= 4 -> exists o, pure_first exC (exm ns me ord) 0 (exb 0) = Ok o /\ o_ls o = 4 - ns /\ o_nc o = 4 - ns.
Proof.
  intros H. unfold pure_first, exm. destruct (Req_EM_T 0 0); [|lra]. cbn [ca_Omega_K0 ca_method bind String.eqb Ascii.eqb Bool.eqb].
  unfold pure_N_star. cbn [ca_N_star]. destruct (Rle_dec ns 0); [lra|]. cbn [exb b_end b_beg]. destruct (Rlt_dec _ _); [lra|].
  fold (exb 0). rewrite exb_maskedL. change (combine (maskedN (exb 0)) [0; 1; 2; 3]) with [(0, 0); (1, 1); (2, 2); (3, 3)].
  rewrite ex_interp by lra. cbn [bind pure_N_star_reh ca_rho_reh_GeV ca_w_reh ca_DeltaN_reh fst snd]. eexists. split; [reflexivity|]. cbn. split; lra.
Qed.
Lemma exm_sane ns me ord : sane (exm ns me ord). Proof. split; cbn; [lra|discriminate]. Qed.
Lemma ex_lk o : o_ls o = 2 -> p_lk (p_of exC (exb 0) o exph exdp) = [-2; -1; 0; 1].
Proof. intros H. unfold p_of. cbn [p_lk]. rewrite exb_maskedL', H. cbn [map K_STAR exC]. rewrite ln_1. apply list4; ring. Qed.
(** four samples, the pivot scale crossing at the third: r = 16 * (1/8) and A_s = 1 / (8 pi^2 (1/8)) *)
Theorem C93_nonvacuous : exists s1 w, calibrate_scale_factor exC exI qquad (exm 2 "CGS" (Some 0%Z)) (exs 0) = (s1, Ok w) /\
  interpolating exI /\ absent ["P_s_approx_ARBDS"; "P_t_approx_ARBDS"] (exs 0) /\ scal s1 "A_s" (1^2 / (8 * PI^2 * (1/8))) /\ scal s1 "r" (16 * (1/8)).
Proof.
  destruct (exm_pure 2 "CGS" (Some 0%Z) ltac:(lra)) as (o & EP & EL & NC). replace (4 - 2) with 2 in * by ring.
  destruct (calibrate_succeeds exC exI qquad (exm 2 "CGS" (Some 0%Z)) (exs 0) (exb 0) o _ _ 0%nat exC_ok (exm_sane _ _ _) (exs_bg 0) eq_refl EP (exs_fields 0) ltac:(cbn; lia) exI_accept eq_refl eq_refl ltac:(lia)) as (s1 & w & E & CAL & F).
  exists s1, w. split; [exact E|]. split; [exact exI_interpolating|]. split; [exact (exs_absent _ d_ARBDS)|].
  destruct (C93_consistency exC exI qquad (exm 2 "CGS" (Some 0%Z)) (exs 0) (exb 0) _ _ s1 w exC_ok (exm_sane _ _ _) (exs_bg 0) (exs_fields 0) eq_refl ltac:(cbn; lia) eq_refl eq_refl exI_interpolating E) as (mask & ks & M & K & R).
  pose proof (calibrated_mask exC _ _ o CAL) as M'. rewrite M in M'. injection M' as ->. rewrite exb_umask in R.
  pose proof (calibrated_k exC s1 (exb 0) o exph exdp CAL) as K'. pose proof (arr_unique _ _ _ _ K K') as EK. clear K'. rewrite (ex_lk o EL) in EK. subst ks.
  assert (EV : fe1 (flow_of qquad (b_K (exb 0)) 2 1 2 (1/2)) = 1/8) by (unfold flow_of, qquad; cbn [a_kind fe1]; unfold T_get_epsilon_1H, T_get_dH; cbn [exb b_K]; field).
  assert (SA : sample_at [true; true; true; true] (exb 0) [4; 3; 2; 1] [1/2; 1/2; 1/2; 1/2] 2 2 1 2 (1/2)) by (repeat split; reflexivity).
  specialize (R 2%nat 2 1 2 (1/2)). rewrite EV in R. apply R; try lra; [|exact SA]. cbn [map nth_error exC K_STAR]. rewrite exp_0. reflexivity.
Qed.

(** the parabola through the first three points *)
Definition newton (l : list (R * R)) (j : nat) (x : R) : R :=
  match l with
  | (x1, y1) :: (x2, y2) :: (x3, y3) :: _ =>
      let d12 := (y2 - y1) / (x2 - x1) in let d23 := (y3 - y2) / (x3 - x2) in let d := (d23 - d12) / (x3 - x1) in
      match j with 0%nat => y1 + d12 * (x - x1) + d * ((x - x1) * (x - x2)) | 1%nat => d12 + d * ((x - x1) + (x - x2)) | 2%nat => 2 * d | _ => 0 end
  | _ => 0
  end.
Definition exP : splines := mksplines (fun k l => Nat.ltb k (List.length l)) (fun _ _ l j x => newton l j x).
Lemma exP_exact : exact_on_parabolas exP.
Proof.
  intros k ext l A B D x0 x Hk AC ND V _ _. cbn [exP spl_accept spl_eval] in *. apply Nat.ltb_lt in AC.
  destruct l as [|[x1 y1] [|[x2 y2] [|[x3 y3] l]]]; cbn [List.length] in AC; [lia|lia|lia|]. cbn [map fst] in ND.
  assert (V1 := V x1 y1 ltac:(cbn; auto)). assert (V2 := V x2 y2 ltac:(cbn; auto)). assert (V3 := V x3 y3 ltac:(cbn; auto)).
  inversion ND as [|? ? N1 ND1]; subst. inversion ND1 as [|? ? N2 _]; subst.
  assert (x1 <> x2) by (intros ->; apply N1; cbn; auto). assert (x1 <> x3) by (intros ->; apply N1; cbn; auto). assert (x2 <> x3) by (intros ->; apply N2; cbn; auto).
  cbn [newton]. cbv zeta. repeat split; field; repeat split; intros X; lra.
Qed.
Lemma ex_llms_P q o oo : o_nc o = 2 -> o_k oo = 3%nat -> let p := p_of exC (exb 0) o exph exdp in exists v, llms_val exC exP q oo p = Ok v.
Proof.
  intros NC OK p. unfold llms_val, cross4.
  destruct (ex_at o 2 NC ltac:(lra) (p_H p)) as (H & EH & _); [unfold p, p_of; cbn [p_H]; rewrite exb_umask; reflexivity|]. unfold p at 1. rewrite EH. cbn [bind].
  destruct (ex_at o 2 NC ltac:(lra) (map fe1 (pflows q p))) as (e1 & E1 & _); [rewrite map_length; apply ex_flows|]. fold p in E1. rewrite E1. cbn [bind].
  destruct (ex_at o 2 NC ltac:(lra) (map fe2 (pflows q p))) as (e2 & E2 & _); [rewrite map_length; apply ex_flows|]. fold p in E2. rewrite E2. cbn [bind].
  destruct (ex_at o 2 NC ltac:(lra) (map fe3 (pflows q p))) as (e3 & E3 & _); [rewrite map_length; apply ex_flows|]. fold p in E3. rewrite E3. cbn [bind].
  assert (LL : List.length (p_lk p) = 4%nat) by (unfold p, p_of; cbn [p_lk]; rewrite exb_maskedL'; reflexivity).
  unfold buildR. cbn [fst snd exP spl_accept]. rewrite !combine_length, !map_length. unfold LK. rewrite !map_length, LL, OK. cbn [Nat.min Nat.ltb Nat.leb]. eauto.
Qed.
Theorem C94_nonvacuous : exists s1 w, calibrate_scale_factor exC exP qquad (exm 2 "LLMS" None) (exs 0) = (s1, Ok w) /\ exact_on_parabolas exP /\
  (forall ks, arr s1 "k_iMpc" ks -> (exists k, In k ks /\ k <= K_STAR exC) /\ (exists k, In k ks /\ K_STAR exC <= k)).
Proof.
  destruct (exm_pure 2 "LLMS" None ltac:(lra)) as (o & EP & EL & NC). replace (4 - 2) with 2 in * by ring.
  pose proof (calibrate_full exC exP qquad (exm 2 "LLMS" None) (exs 0) (exb 0) o _ _ exC_ok (exm_sane _ _ _) (exs_bg 0) eq_refl EP (exs_fields 0) ltac:(cbn; lia)) as R.
  unfold spl_val in R. cbn [exm ca_approx String.eqb Ascii.eqb Bool.eqb] in R.
  destruct (ex_llms_P qquad o default_opts NC eq_refl) as [v Ev]. cbv zeta in Ev. change (ca_opts (exm 2 "LLMS" None)) with default_opts in R. unfold exph, exdp in Ev. cbn [ca_opts] in R. rewrite Ev in R. cbn [bind] in R.
  destruct R as (s1 & w & kn & E & CAL & _). exists s1, w. split; [exact E|]. split; [exact exP_exact|].
  intros ks K. pose proof (calibrated_k exC s1 (exb 0) o exph exdp CAL) as K'. pose proof (arr_unique _ _ _ _ K K') as EK. clear K'. rewrite (ex_lk o EL) in EK. subst ks.
  cbn [map exC K_STAR]. rewrite exp_0. split; exists 1; (split; [cbn; auto|lra]).
Qed.
