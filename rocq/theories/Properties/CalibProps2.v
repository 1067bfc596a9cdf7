(** Calibration of the scale factor: agreement of the parametrisations, properties C39-C41. *)
From Coq Require Import Reals List String ZArith Bool Lra Lia.
From Verif Require Import Base Model.Equations Model.Background Model.Float Model.Solution Model.Interp Model.State Model.Reheating
  Model.ApproxPower Model.Calibrate Spec.CalibSpec Proofs.BaseLemmas Proofs.FloatLemmas Proofs.DictLemmas Proofs.StateLemmas Proofs.CalibFrame
  Proofs.CalibPure Proofs.CalibPure2 Proofs.CalibPure3 Proofs.CalibRun Proofs.PowerRun Proofs.CalibResult Proofs.CalibTotal Proofs.InterpInverse
  Properties.CalibProps.
Import ListNotations.
Open Scope R_scope.
Open Scope string_scope.

(** the call of [a] with these reheating keywords instead *)
Definition with_reh (a : calargs) (me : string) (ns w dn dm rho : option R) : calargs :=
  mkargs (Some me) (ca_Omega_K0 a) (ca_h a) ns (ca_background a) dn w rho (ca_g_th a) dm (ca_approx a) (ca_order a) (ca_opts a).

(** attributes that describe the calibration, the spectra parameters, and reheating *)
Definition calibration : list string :=
  ["delta_N_calib"; "_logaH_star"; "_N_cross"; "N_star"; "DeltaN_minus1"; "N0"; "a0"; "Omega_K0"; "a0_Mpc"; "logk"; "inflation_mask"; "N"; "N_beg"; "N_end"; "N_cross"; "N_dagg";
   "k_iMpc"; "_k"; "cHH_Mpc"; "cHH_end_Mpc"; "A_s"; "n_s"; "n_run"; "n_runrun"; "A_t"; "n_t"; "r"].
Definition reheating : list string := ["_N_reh"; "N_reh"; "DeltaN_reh"; "w_reh"; "rho_reh_GeV"].
Definition agree (ks : list string) (s s' : attrs) : Prop := forall k, In k ks -> dict_get k s' = dict_get k s /\ dict_get k s <> None.

(** documented methods and orders of the approximate spectra *)
Definition documented (me : string) (ord : option Z) : Prop :=
  me = "LLMS" \/ me = "STE" \/ (me = "CGS" /\ exists n, ord = Some n /\ (0 <= n <= 3)%Z) \/ (me = "ARBDS" /\ exists n, ord = Some n /\ (1 <= n <= 3)%Z).
Lemma documented_spl C S q me ord o p : documented me ord -> spl_val C S q me ord o p <> Ok None.
Proof.
  intros [->|[->|[[-> (n & -> & Hn)]|[-> (n & -> & Hn)]]]]; unfold spl_val; cbn [String.eqb Ascii.eqb Bool.eqb].
  - destruct (llms_val _ _ _ _ _); discriminate.
  - destruct (ste_val _ _ _ _ _); discriminate.
  - destruct (vals4 _) as [[[[v0 v1] v2] v3]|]; [|discriminate]. cbn [bind pick order_is].
    assert (D : (n = 0 \/ n = 1 \/ n = 2 \/ n = 3)%Z) by lia. destruct D as [->|[->|[->| ->]]]; discriminate.
  - destruct (vals3 _) as [[[v1 v2] v3]|]; [|discriminate]. cbn [bind pick3 order_is].
    assert (D : (n = 1 \/ n = 2 \/ n = 3)%Z) by lia. destruct D as [->|[->| ->]]; discriminate.
Qed.

Definition core (o : cout) := (o_dc o, o_ls o, o_nc o, o_ns o, o_dm o, (o_N0 o, o_a0 o, o_OmK o)).
Ltac key H := repeat (destruct H as [<-|H]; [|]); [..|destruct H].
Lemma agree_list ks s s' : Forall (fun k => dict_get k s' = dict_get k s /\ dict_get k s <> None) ks -> agree ks s s'.
Proof. intros F k I. rewrite Forall_forall in F. exact (F k I). Qed.
Lemma two_gets (s s' : attrs) k v : dict_get k s = Some v -> dict_get k s' = Some v -> dict_get k s' = dict_get k s /\ dict_get k s <> None.
Proof. intros -> ->. split; [reflexivity|discriminate]. Qed.

Lemma same_outcome C S q a1 a2 s b o1 o2 ph dp s1 w : consts_ok C -> sane a1 -> sane a2 -> background s b -> ca_background a1 = None -> ca_background a2 = None ->
  fields s ph dp -> (3 <= o_k (ca_opts a1))%nat -> documented (ca_approx a1) (ca_order a1) ->
  ca_approx a2 = ca_approx a1 -> ca_order a2 = ca_order a1 -> ca_opts a2 = ca_opts a1 ->
  pure_first C a1 (a_K q) b = Ok o1 -> pure_first C a2 (a_K q) b = Ok o2 -> core o2 = core o1 ->
  calibrate_scale_factor C S q a1 s = (s1, Ok w) ->
  exists s2 w2, calibrate_scale_factor C S q a2 s = (s2, Ok w2) /\ agree calibration s1 s2 /\ (o2 = o1 -> w2 = w /\ agree reheating s1 s2).
Proof.
  intros HC HA1 HA2 HB N1 N2 HF H3 HD E1 E2 E3 P1 P2 CO E.
  pose proof (calibrate_full C S q a1 s b o1 ph dp HC HA1 HB N1 P1 HF H3) as R1.
  pose proof (calibrate_full C S q a2 s b o2 ph dp HC HA2 HB N2 P2 HF ltac:(rewrite E3; exact H3)) as R2.
  rewrite E1, E2, E3 in R2.
  assert (EP : p_of C b o2 ph dp = p_of C b o1 ph dp).
  { unfold p_of. unfold core in CO. injection CO as _ -> -> _ _ _ _ _. reflexivity. }
  rewrite EP in R2. pose proof (documented_spl C S q _ _ (ca_opts a1) (p_of C b o1 ph dp) HD) as ND.
  destruct (spl_val C S q (ca_approx a1) (ca_order a1) (ca_opts a1) (p_of C b o1 ph dp)) as [[v|]|e]; [|contradiction|].
  2:{ rewrite E in R1. discriminate. }
  destruct R1 as (s1' & w1 & kn1 & E1' & C1 & _ & _ & V1 & Q1 & _ & _ & W1). rewrite E in E1'. injection E1' as <- <-.
  destruct R2 as (s2 & w2 & kn2 & E2' & C2 & _ & _ & V2 & Q2 & _ & _ & W2).
  exists s2, w2. split; [exact E2'|].
  assert (EK : kn2 = kn1). { rewrite V1 in V2. injection V2 as X Y. destruct kn1, kn2; cbn in *; congruence. }
  subst kn2. clear V1 V2.
  split.
  - unfold core in CO. injection CO as O1 O2 O3 O4 O5 O6 O7 O8.
    destruct C1 as (((A1 & A2 & A3 & A4 & A5 & _ & _ & _ & _ & A10 & A11 & A12) & BG1 & A13 & A14) & B1 & B2 & B3 & _ & B5 & B6 & B7 & B8 & B9 & B10).
    destruct C2 as (((A1' & A2' & A3' & A4' & A5' & _ & _ & _ & _ & A10' & A11' & A12') & BG2 & A13' & A14') & B1' & B2' & B3' & _ & B5' & B6' & B7' & B8' & B9' & B10').
    destruct BG1 as (_ & _ & _ & _ & BM1 & _). destruct BG2 as (_ & _ & _ & _ & BM2 & _).
    destruct Q1 as (S1 & S2 & S3 & S4 & S5 & S6 & S7). destruct Q2 as (S1' & S2' & S3' & S4' & S5' & S6' & S7').
    unfold scal, arr in *. rewrite ?O1, ?O2, ?O3, ?O4, ?O5, ?O6, ?O7, ?O8 in *.
    apply agree_list. unfold calibration. repeat (constructor; [eapply two_gets; eassumption|]). constructor.
  - intros ->. split; [rewrite W1, W2; reflexivity|].
    destruct C1 as (((A1 & A2 & A3 & A4 & A5 & A6 & A7 & A8 & A9 & _) & _) & B1 & B2 & B3 & B4 & _).
    destruct C2 as (((A1' & A2' & A3' & A4' & A5' & A6' & A7' & A8' & A9' & _) & _) & B1' & B2' & B3' & B4' & _).
    unfold scal, arr in *. apply agree_list. unfold reheating. repeat (constructor; [eapply two_gets; eassumption|]). constructor.
Qed.

(** ** C39 *)
(** log(aH) and N increase strictly along the samples in use (they are inside inflation) *)
Definition increasing (b : bg) : Prop := inc2 (combine (select (b_mask b) (b_N b)) (select (b_mask b) (logaH b))).

Lemma swap_combine (l m : list R) : map swap (combine l m) = combine m l.
Proof. revert m; induction l as [|x l IH]; intros [|y m]; cbn; auto. f_equal. apply IH. Qed.

Section C39.
Variables (C : consts) (a : calargs) (b : bg) (w dn : R).
Hypothesis HC : consts_ok C.
Hypothesis HV : 0 < b_Vend b.
Hypothesis HI : increasing b.
Hypothesis HU : Forall (fun p => b_beg b < fst p < b_end b) (used (b_N b) (b_H b) (b_mask b)).
Hypothesis HL1 : List.length (b_H b) = List.length (b_N b).
Hypothesis Hw : -1/3 <= w.
Hypothesis Hw3 : w <> 1/3.
Hypothesis Hdn : 0 < dn.
Let A := with_reh a "reheating" None (Some w) (Some dn) None None.
Let rho := GeV C (3/2 * b_Vend b * exp (-3 * (1+w) * dn)).
Let dm := dn / 4 * (1 - 3 * w).

Lemma rho_pos : 0 < rho. Proof. apply GeV_pos. Qed.
Lemma mrho : mp4 C rho = 3/2 * b_Vend b * exp (-3 * (1+w) * dn).
Proof. apply mp4_GeV; [exact HC|]. apply Rmult_lt_0_compat; [lra|apply exp_pos]. Qed.
Lemma log_rho : ln (3/2 * b_Vend b / mp4 C rho) = 3 * (1+w) * dn.
Proof.
  rewrite mrho. replace (3/2 * b_Vend b / (3/2 * b_Vend b * exp (-3 * (1+w) * dn))) with (/ exp (-3 * (1+w) * dn)).
  - rewrite <- exp_Ropp, ln_exp. ring.
  - field. split; [apply Rgt_not_eq, exp_pos|lra].
Qed.
(** the temperature relation *)
Lemma lgT_lgV : lgT C (mp4 C rho) + lgV C (b_Vend b) = 3 * (1+w) * dn / 4.
Proof.
  pose proof (T4 C HC) as T. unfold lgT, lgV. pose proof log_rho as L. assert (P : 0 < mp4 C rho) by (apply mp4_pos; [exact HC|apply rho_pos]).
  rewrite <- L. rewrite <- !Rdiv_plus_distr. rewrite <- ln_mult; [|apply Rdiv_lt_0_compat; lra|apply Rdiv_lt_0_compat; lra]. f_equal. f_equal. assert (0 < T_CMB_Tp C) by apply HC. field. repeat split; lra.
Qed.
Lemma not_bad : bad_reheating A = false.
Proof. unfold bad_reheating, A, with_reh. cbn. destruct (Rlt_dec dn 0); [lra|]. destruct (Rlt_dec w (-1/3)); [lra|]. reflexivity. Qed.
Lemma not_instant : given_eq (Some w) (1/3) = false /\ given_eq (Some dn) 0 = false /\ given_eq (Some dm) 0 = false.
Proof.
  assert (dm <> 0). { unfold dm. intros H. assert (dn / 4 <> 0) by lra. apply Rmult_integral in H. destruct H as [H|H]; [contradiction|]. apply Hw3; lra. }
  cbn. destruct (Req_EM_T w (1/3)); [contradiction|]. destruct (Req_EM_T dn 0); [lra|]. destruct (Req_EM_T dm 0); [contradiction|]. auto.
Qed.
Lemma reh_A : pure_reh_cases C A b = Ok (dm, Fin dn, Fin w, Fin rho).
Proof.
  destruct not_instant as (I1 & I2 & _). unfold pure_reh_cases, A, with_reh. cbn [ca_N_star ca_rho_reh_GeV ca_w_reh ca_DeltaN_reh ca_DeltaN_minus1].
  unfold is_instant_reheating. rewrite I1, I2. cbn [is_none negb andb orb given_eq bind]. reflexivity.
Qed.
Definition A1 := with_reh a "reheating" None (Some w) None None (Some rho).
Definition A2 := with_reh a "reheating" None None None (Some dm) (Some rho).
Definition A5 := with_reh a "reheating" None None None (Some dm) None.
Lemma reh_A1 : bad_reheating A1 = false /\ pure_reh_cases C A1 b = Ok (dm, Fin dn, Fin w, Fin rho).
Proof.
  destruct not_instant as (I1 & I2 & _). split.
  - unfold bad_reheating, A1, with_reh. cbn. destruct (Rlt_dec w (-1/3)); [lra|]. reflexivity.
  - unfold pure_reh_cases, A1, with_reh. cbn [ca_N_star ca_rho_reh_GeV ca_w_reh ca_DeltaN_reh ca_DeltaN_minus1].
    unfold is_instant_reheating. rewrite I1. cbn [is_none negb andb orb given_eq bind]. cbv zeta. rewrite log_rho.
    replace (3 * (1 + w) * dn / (3 * (1 + w))) with dn by (field; lra). reflexivity.
Qed.
Lemma w_back : fsub (fdiv (Fin (3 * (1 + w) * dn)) (Fin (3 * dn))) (Fin 1) = Fin w.
Proof. rewrite fdiv_fin by lra. cbn [fsub]. f_equal. field. lra. Qed.
Lemma lgg_eq me ns w' dn' dm' rho' : lgg C (with_reh a me ns w' dn' dm' rho') = lgg C A.
Proof. reflexivity. Qed.
Lemma dn_back : 0 - lgg C A + lgT C (mp4 C rho) - (base_end C A b - dm) = dn.
Proof. unfold base_end, dm. pose proof lgT_lgV. lra. Qed.
Lemma reh_A2 : bad_reheating A2 = false /\ pure_reh_cases C A2 b = Ok (dm, Fin dn, Fin w, Fin rho).
Proof.
  destruct not_instant as (_ & _ & I3). split; [reflexivity|].
  unfold pure_reh_cases, A2. cbn [with_reh ca_N_star ca_rho_reh_GeV ca_w_reh ca_DeltaN_reh ca_DeltaN_minus1].
  unfold is_instant_reheating. rewrite I3. cbn [is_none negb andb orb given_eq bind is_given]. cbv zeta. rewrite log_rho.
  change (lgg C (with_reh a "reheating" None None None (Some dm) (Some rho))) with (lgg C A).
  change (base_end C (with_reh a "reheating" None None None (Some dm) (Some rho)) b) with (base_end C A b).
  rewrite dn_back, w_back. reflexivity.
Qed.
Lemma reh_A5 : bad_reheating A5 = false /\ pure_reh_cases C A5 b = Ok (dm, NaN, NaN, NaN).
Proof.
  destruct not_instant as (_ & _ & I3). split; [reflexivity|].
  unfold pure_reh_cases, A5. cbn [with_reh ca_N_star ca_rho_reh_GeV ca_w_reh ca_DeltaN_reh ca_DeltaN_minus1].
  unfold is_instant_reheating. rewrite I3. cbn [is_none negb andb orb given_eq bind is_given]. reflexivity.
Qed.

Lemma flat_meth K a' me : ca_Omega_K0 a' = ca_Omega_K0 a -> ca_method a' = Some me -> K = 0 -> forall o, pure_first C A K b = Ok o ->
  pure_first C a' K b = (if String.eqb me "N_star" then pure_N_star C a' b else if String.eqb me "reheating" then pure_flat_reheating C a' b else Raise NotImplementedError).
Proof.
  intros EO EM -> o E. unfold pure_first in *. destruct (Req_EM_T 0 0); [|lra]. rewrite EO, EM. unfold A, with_reh in E. cbn [ca_Omega_K0] in E.
  destruct (match ca_Omega_K0 a with Some _ => _ | None => _ end); [reflexivity|discriminate].
Qed.
Variable o : cout.
Hypothesis HO : pure_first C A 0 b = Ok o.
Lemma out_A : pure_flat_reheating C A b = Ok o.
Proof. rewrite (flat_meth 0 A "reheating" eq_refl eq_refl eq_refl o HO) in HO. exact HO. Qed.
Lemma same_reh a' : ca_Omega_K0 a' = ca_Omega_K0 a -> ca_method a' = Some "reheating" -> ca_g_th a' = ca_g_th a ->
  bad_reheating a' = false -> pure_reh_cases C a' b = Ok (dm, Fin dn, Fin w, Fin rho) -> pure_first C a' 0 b = Ok o.
Proof.
  intros E1 E2 E3 E4 E5. rewrite (flat_meth 0 a' "reheating" E1 E2 eq_refl o HO). cbn [String.eqb Ascii.eqb Bool.eqb].
  pose proof out_A as H. unfold pure_flat_reheating in *. rewrite E4, E5. rewrite not_bad, reh_A in H. cbn [bind fst snd] in *.
  assert (EB : base_end C a' b = base_end C A b) by (unfold base_end, lgg, A, with_reh; cbn [ca_g_th]; rewrite E3; reflexivity).
  rewrite EB. exact H.
Qed.
Lemma same_reh5 : exists o', pure_first C A5 0 b = Ok o' /\ core o' = core o.
Proof.
  destruct reh_A5 as (E4 & E5). rewrite (flat_meth 0 A5 "reheating" eq_refl eq_refl eq_refl o HO). cbn [String.eqb Ascii.eqb Bool.eqb].
  pose proof out_A as H. unfold pure_flat_reheating in *. rewrite E4, E5. rewrite not_bad, reh_A in H. cbn [bind fst snd] in *. cbv zeta in *.
  assert (EB : base_end C A5 b = base_end C A b) by reflexivity. rewrite EB.
  destruct (Rlt_dec _ _) in H |- *; [discriminate|]. destruct (Rlt_dec _ _) in H |- *; [discriminate|].
  destruct (interp1d _ _) as [nc|]; [|discriminate]. cbn [bind] in *. injection H as <-. eexists. split; [reflexivity|]. reflexivity.
Qed.
Definition A3 := with_reh a "N_star" (Some (o_ns o)) (Some w) None None None.
Definition A4 := with_reh a "N_star" (Some (o_ns o)) None None None (Some rho).
Lemma used_in x : In x (combine (maskedN b) (maskedL b)) -> b_beg b < fst x < b_end b.
Proof.
  rewrite Forall_forall in HU. intros I.
  assert (X : exists h, In (fst x, h) (used (b_N b) (b_H b) (b_mask b))).
  { revert I. unfold maskedN, maskedL, logaH. clear -HL1. revert HL1. generalize (b_mask b). generalize (b_H b). generalize (b_N b).
    induction l as [|n N IH]; intros [|h H] [|c m] L; cbn; try contradiction; try discriminate. destruct c; cbn.
    - intros [<-|I]; [exists h; left; reflexivity|]. destruct (IH H m ltac:(cbn in L; lia) I) as [h' I']. exists h'. right. exact I'.
    - intros I. apply IH; [cbn in L; lia|exact I]. }
  destruct X as [h I']. exact (HU _ I').
Qed.
Lemma same_N_star a' : ca_Omega_K0 a' = ca_Omega_K0 a -> ca_method a' = Some "N_star" -> ca_g_th a' = ca_g_th a -> ca_N_star a' = Some (o_ns o) ->
  pure_N_star_reh C a' b dm (o_dc o) = Ok (o_nreh o, o_dn o, o_w o, o_rho o) -> pure_first C a' 0 b = Ok o.
Proof.
  intros E1 E2 E3 E4 E5. rewrite (flat_meth 0 a' "N_star" E1 E2 eq_refl o HO). cbn [String.eqb Ascii.eqb Bool.eqb].
  pose proof out_A as H. apply pure_flat_reh_inv in H. destruct H as (_ & dm' & O1 & O2 & O3 & O4 & _ & O6 & O7 & O8 & O9 & O10 & O11).
  rewrite reh_A in O2. injection O2 as <- D1 D2 D3.
  assert (INV : interp1d (combine (maskedN b) (maskedL b)) (o_nc o) = Ok (o_ls o)).
  { rewrite <- swap_combine. apply interp_inverse; [|exact O6]. rewrite <- swap_combine. apply inc2_swap. exact HI. }
  destruct (interp_range (combine (maskedN b) (maskedL b)) (o_nc o) (o_ls o) HI INV) as (p1 & p2 & I1 & I2 & _ & R).
  apply used_in in I1. apply used_in in I2.
  unfold pure_N_star. rewrite E4. destruct (Rle_dec (o_ns o) 0); [exfalso; lra|]. destruct (Rlt_dec (b_end b - b_beg b) (o_ns o)); [exfalso; lra|].
  cbv zeta. replace (b_end b - o_ns o) with (o_nc o) by lra. rewrite INV. cbn [bind].
  replace (0 - o_ls o + lgK C) with (o_dc o) by lra.
  assert (ED : 0 - o_ns o - ln (K_STAR_lp C / exp (o_ls o - o_nc o)) - lgg C a' - lgV C (b_Vend b) = dm).
  { unfold Rdiv. rewrite ln_mult; [|apply Klp_pos, HC|apply Rinv_0_lt_compat, exp_pos]. rewrite ln_Rinv by apply exp_pos. rewrite ln_exp. fold (lgK C).
    assert (EB : lgg C a' = lgg C A) by (unfold lgg, A, with_reh; cbn [ca_g_th]; rewrite E3; reflexivity). rewrite EB. unfold base_end in O3. lra. }
  rewrite ED, E5. cbn [bind fst snd]. destruct o. cbn in *. subst. reflexivity.
Qed.
Lemma out_A3 : pure_first C A3 0 b = Ok o.
Proof.
  pose proof out_A as H. apply pure_flat_reh_inv in H. destruct H as (_ & dm' & O1 & O2 & O3 & O4 & _ & O6 & O7 & O8 & _).
  rewrite reh_A in O2. injection O2 as <- D1 D2 D3. apply same_N_star; try reflexivity.
  unfold pure_N_star_reh, A3. cbn [with_reh ca_rho_reh_GeV ca_w_reh ca_DeltaN_reh]. destruct (Req_EM_T w (1/3)); [contradiction|]. cbv zeta.
  replace (4 * dm / (1 - 3 * w)) with dn by (unfold dm; field; lra). destruct (Rlt_dec dn 0); [lra|]. destruct (Rlt_dec w (-1/3)); [lra|].
  rewrite O8, <- D1, <- D2, <- D3. reflexivity.
Qed.
Lemma out_A4 : pure_first C A4 0 b = Ok o.
Proof.
  pose proof out_A as H. apply pure_flat_reh_inv in H. destruct H as (_ & dm' & O1 & O2 & O3 & O4 & _ & O6 & O7 & O8 & _).
  rewrite reh_A in O2. injection O2 as <- D1 D2 D3. apply same_N_star; try reflexivity.
  unfold pure_N_star_reh, A4. cbn [with_reh ca_rho_reh_GeV ca_w_reh ca_DeltaN_reh]. cbv zeta.
  change (lgg C (with_reh a "N_star" (Some (o_ns o)) None None None (Some rho))) with (lgg C A).
  pose proof dn_back as DB.
  assert (ED : 0 - lgg C A + lgT C (mp4 C rho) - o_dc o - b_end b = dn) by lra.
  rewrite ED, log_rho, w_back, O8, <- D1, <- D2, <- D3. cbn [fadd].
  replace (0 - lgg C A + lgT C (mp4 C rho) - o_dc o) with (b_end b + dn) by lra. reflexivity.
Qed.
End C39.

(** Calibrating by (w_reh, DeltaN_reh); the derived energy density, DeltaN_minus1 and N_star used as input
    instead give the same calibration, spectra parameters and reheating parameters. *)
Theorem C39_flat_parametrisations : forall C S q a s b s1 ws w dn ph dp,
  consts_ok C -> 0 < ca_g_th a -> background s b -> increasing b -> ca_background a = None -> a_K q = 0 ->
  fields s ph dp -> (3 <= o_k (ca_opts a))%nat -> documented (ca_approx a) (ca_order a) ->
  -1/3 <= w -> w <> 1/3 -> 0 < dn ->
  calibrate_scale_factor C S q (with_reh a "reheating" None (Some w) (Some dn) None None) s = (s1, Ok ws) ->
  exists rho dm ns,
    scal s1 "w_reh" w /\ scal s1 "DeltaN_reh" dn /\ scal s1 "rho_reh_GeV" rho /\ scal s1 "DeltaN_minus1" dm /\ scal s1 "N_star" ns /\
    (forall a', In a' [ with_reh a "reheating" None (Some w) None None (Some rho);
                        with_reh a "reheating" None None None (Some dm) (Some rho);
                        with_reh a "N_star" (Some ns) (Some w) None None None;
                        with_reh a "N_star" (Some ns) None None None (Some rho) ] ->
       exists s2, calibrate_scale_factor C S q a' s = (s2, Ok ws) /\ agree calibration s1 s2 /\ agree reheating s1 s2) /\
    (* DeltaN_minus1 alone: the same calibration, reheating parameters unknown *)
    (exists s2 w2, calibrate_scale_factor C S q (with_reh a "reheating" None None None (Some dm) None) s = (s2, Ok w2) /\ agree calibration s1 s2 /\
       dict_get "w_reh" s2 = Some (VF NaN) /\ dict_get "DeltaN_reh" s2 = Some (VF NaN) /\ dict_get "rho_reh_GeV" s2 = Some (VF NaN)).
Proof.
  intros C S q a s b s1 ws w dn ph dp HC HG HB HI HN HK HF H3 HD Hw Hw3 Hdn E.
  set (A := with_reh a "reheating" None (Some w) (Some dn) None None) in *.
  assert (SA : sane A) by (split; cbn; [exact HG|discriminate]).
  destruct (calibrate_result C S q A s b s1 ws HC SA HB HN E) as (o & EP & P & _). rewrite HK in EP.
  assert (HV : 0 < b_Vend b) by apply HB. assert (HL : List.length (b_H b) = List.length (b_N b)) by apply HB.
  assert (HU : Forall (fun p => b_beg b < fst p < b_end b) (used (b_N b) (b_H b) (b_mask b))) by apply HB.
  set (rho := GeV C (3/2 * b_Vend b * exp (-3 * (1+w) * dn))). set (dm := dn / 4 * (1 - 3 * w)).
  exists rho, dm, (o_ns o).
  pose proof (out_A C a b w dn o EP) as FR. apply pure_flat_reh_inv in FR. destruct FR as (_ & dm' & O1 & O2 & _).
  pose proof (reh_A C a b w dn Hw3 Hdn) as RA. rewrite RA in O2. injection O2 as <- D1 D2 D3.
  destruct P as (((P1 & P2 & P3 & P4 & P5 & P6 & P7 & P8 & P9 & _) & _) & _).
  unfold scal. rewrite P7, P8, P9, P5, O1, <- D1, <- D2, <- D3. do 4 (split; [reflexivity|]). split; [exact P4|].
  assert (RP : 0 < rho) by apply GeV_pos.
  split.
  - intros a' I.
    assert (X : sane a' /\ ca_background a' = None /\ ca_approx a' = ca_approx A /\ ca_order a' = ca_order A /\ ca_opts a' = ca_opts A /\ pure_first C a' 0 b = Ok o).
    { destruct I as [<-|[<-|[<-|[<-|[]]]]]; (split; [split; cbn; [exact HG|intros r; try discriminate; intros [= <-]; exact RP]|]); do 4 (split; [first [exact HN|reflexivity]|]).
      - apply (same_reh C a b w dn Hw Hw3 Hdn o EP); try reflexivity; apply (reh_A1 C a b w dn HC HV Hw Hw3 Hdn).
      - apply (same_reh C a b w dn Hw Hw3 Hdn o EP); try reflexivity; apply (reh_A2 C a b w dn HC HV Hw3 Hdn).
      - apply (out_A3 C a b w dn); assumption.
      - apply (out_A4 C a b w dn); assumption. }
    destruct X as (X1 & X2 & X3 & X4 & X5 & X6). rewrite <- HK in EP, X6.
    destruct (same_outcome C S q A a' s b o o ph dp s1 ws HC SA X1 HB HN X2 HF H3 HD X3 X4 X5 EP X6 eq_refl E) as (s2 & w2 & E2 & AG & RE).
    destruct (RE eq_refl) as [-> AR]. exists s2. auto.
  - destruct (same_reh5 C a b w dn Hw Hw3 Hdn o EP) as (o' & EP' & CO). 
    set (a' := with_reh a "reheating" None None None (Some dm) None). change (A5 a w dn) with a' in EP'.
    assert (SA' : sane a') by (split; cbn; [exact HG|discriminate]). pose proof EP' as EP''. rewrite <- HK in EP, EP'.
    destruct (same_outcome C S q A a' s b o o' ph dp s1 ws HC SA SA' HB HN HN HF H3 HD eq_refl eq_refl eq_refl EP EP' CO E) as (s2 & w2 & E2 & AG & _).
    exists s2, w2. split; [exact E2|]. split; [exact AG|].
    destruct (calibrate_result C S q a' s b s2 w2 HC SA' HB HN E2) as (o2 & EP2 & (((_ & _ & _ & _ & _ & _ & P7' & P8' & P9' & _) & _) & _) & _). rewrite HK in EP2. rewrite EP'' in EP2. injection EP2 as <-.
    pose proof (reh_A5 C a b w dn Hw3 Hdn) as (B5 & R5).
    rewrite (flat_meth C a b w dn 0 a' "reheating" eq_refl eq_refl eq_refl o ltac:(rewrite <- HK; exact EP)) in EP''. cbn [String.eqb Ascii.eqb Bool.eqb] in EP''.
    apply pure_flat_reh_inv in EP''. destruct EP'' as (_ & dm' & _ & O2 & _). change (A5 a w dn) with a' in R5. rewrite R5 in O2. injection O2 as _ D1' D2' D3'.
    rewrite P7', P8', P9', <- D1', <- D2', <- D3'. auto.
Qed.
