(** The origin of the number of e-folds is a convention in flat universes, property C102. *)
From Coq Require Import Reals List String ZArith Bool Lra Lia.
From Verif Require Import Base Model.Equations Model.Background Model.Float Model.Solution Model.Interp Model.State Model.Reheating
  Model.ApproxPower Model.Calibrate Spec.CalibSpec Proofs.BaseLemmas Proofs.FloatLemmas Proofs.DictLemmas Proofs.StateLemmas Proofs.CalibFrame
  Proofs.CalibPure Proofs.CalibPure2 Proofs.CalibPure3 Proofs.CalibRun Proofs.PowerRun Proofs.CalibResult Proofs.CalibTotal Proofs.CalibCompare
  Properties.CalibProps Properties.CalibProps2.
Import ListNotations.
Open Scope R_scope.
Open Scope string_scope.

(** the same background with [c] added to each number of e-folds *)
Definition moved (c : R) (b : bg) : bg :=
  mkbg (b_K b) (map (fun n => n + c) (b_N b)) (b_H b) (b_mask b) (b_beg b + c) (b_end b + c) (b_Hbeg b) (b_Hend b) (b_Vend b).
(** the attributes that do not know about the origin *)
Definition observable : list string :=
  ["N_star"; "DeltaN_minus1"; "N0"; "a0"; "Omega_K0"; "logk"; "inflation_mask"; "N"; "N_beg"; "N_end"; "N_cross"; "N_dagg";
   "k_iMpc"; "cHH_Mpc"; "cHH_end_Mpc"; "A_s"; "n_s"; "n_run"; "n_runrun"; "A_t"; "n_t"; "r"; "logk2logP_s"; "logk2logP_t";
   "N_reh"; "DeltaN_reh"; "w_reh"; "rho_reh_GeV"].
(** [s'] is [s] with the origin moved by c, as far as the other attributes are concerned *)
Definition moved_attrs (c : R) (s s' : attrs) : Prop :=
  (forall d, scal s "delta_N_calib" d -> scal s' "delta_N_calib" (d - c)) /\
  (forall x, scal s "_logaH_star" x -> scal s' "_logaH_star" (x + c)) /\
  (forall n, scal s "_N_cross" n -> scal s' "_N_cross" (n + c)) /\
  (forall v, dict_get "_N_reh" s = Some (VF v) -> dict_get "_N_reh" s' = Some (VF (fadd v (Fin c)))) /\
  (forall l, arr s "_k" l -> arr s' "_k" (map (fun k => k * exp c) l)) /\
  (** flat universes: only the product k*a0 has a meaning, a0_Mpc is e^c times larger *)
  (forall x, scal s "a0_Mpc" x -> scal s' "a0_Mpc" (x * exp c)).

Lemma logaH_moved c b : logaH (moved c b) = map (fun x => x + c) (logaH b).
Proof.
  unfold logaH, moved. cbn [b_N b_H]. generalize (b_H b). induction (b_N b) as [|n N IH]; intros [|h H]; try reflexivity.
  cbn [map logaH_of]. rewrite IH. f_equal. ring.
Qed.
Lemma umask_moved c b : umask (moved c b) = umask b.
Proof.
  unfold umask. rewrite logaH_moved. cbn [moved b_mask]. f_equal. rewrite map_map.
  apply (first_occ_inj (fun x => x + c) (logaH b)) with (seen := []). intros; split; intros; lra.
Qed.
Lemma maskedN_moved c b : maskedN (moved c b) = map (fun x => x + c) (maskedN b).
Proof. unfold maskedN. cbn [moved b_mask b_N]. apply select_map. Qed.
Lemma maskedL_moved c b : maskedL (moved c b) = map (fun x => x + c) (maskedL b).
Proof. unfold maskedL. rewrite logaH_moved. cbn [moved b_mask]. apply select_map. Qed.
Lemma remask_moved c b : remask (moved c b) = moved c (remask b).
Proof. unfold remask. rewrite umask_moved. reflexivity. Qed.

Definition omoved (c : R) (o : cout) : cout :=
  mkcout (o_dc o - c) (o_ls o + c) (o_nc o + c) (o_ns o) (o_dm o) (fadd (o_nreh o) (Fin c)) (o_dn o) (o_w o) (o_rho o) (o_N0 o) (o_a0 o) (o_OmK o).
Lemma fadd_shift x c d : fadd (fadd x (Fin c)) (Fin (d - c)) = fadd x (Fin d).
Proof. destruct x; cbn; try reflexivity. f_equal. ring. Qed.
Lemma warns_moved c o : warns (omoved c o) = warns o.
Proof. unfold warns, omoved. cbn [o_dn o_N0 o_nreh o_dc]. rewrite fadd_shift. reflexivity. Qed.

Lemma pure_moved C a c b : pure_first C a 0 (moved c b) = do o <- pure_first C a 0 b; Ok (omoved c o).
Proof.
  unfold pure_first. destruct (Req_EM_T 0 0) as [_|X]; [|exfalso; apply X; reflexivity].
  destruct (match ca_Omega_K0 a with Some o => if Req_EM_T o 0 then Ok tt else Raise ValueError | None => Ok tt end) as [u|e]; [|reflexivity].
  cbn [bind]. cbv zeta. destruct (String.eqb _ "N_star"); [|destruct (String.eqb _ "reheating"); [|reflexivity]].
  - unfold pure_N_star. destruct (ca_N_star a) as [ns|]; [|reflexivity]. destruct (Rle_dec ns 0); [reflexivity|].
    cbn [moved b_beg b_end b_Vend]. replace (b_end b + c - (b_beg b + c)) with (b_end b - b_beg b) by ring.
    destruct (Rlt_dec (b_end b - b_beg b) ns); [reflexivity|]. cbv zeta.
    fold (moved c b). rewrite maskedN_moved, maskedL_moved, combine_mv.
    replace (b_end b + c - ns) with (b_end b - ns + c) by ring. rewrite interp_mv.
    destruct (interp1d (combine (maskedN b) (maskedL b)) (b_end b - ns)) as [ls|e]; [|reflexivity]. cbn [bind].
    replace (ls + c - (b_end b - ns + c)) with (ls - (b_end b - ns)) by ring.
    set (dm := 0 - ns - ln (K_STAR_lp C / exp (ls - (b_end b - ns))) - lgg C a - lgV C (b_Vend b)).
    replace (0 - (ls + c) + lgK C) with (0 - ls + lgK C - c) by ring. set (dc := 0 - ls + lgK C).
    assert (E : pure_N_star_reh C a (moved c b) dm (dc - c) = do r <- pure_N_star_reh C a b dm dc; Ok (fadd (fst (fst (fst r))) (Fin c), snd (fst (fst r)), snd (fst r), snd r)).
    { unfold pure_N_star_reh. cbn [moved b_end b_Vend]. destruct (ca_rho_reh_GeV a) as [rho|], (ca_w_reh a) as [w|], (ca_DeltaN_reh a) as [dn|]; try reflexivity.
      - cbv zeta. replace (0 - lgg C a + lgT C (mp4 C rho) - (dc - c) - (b_end b + c)) with (0 - lgg C a + lgT C (mp4 C rho) - dc - b_end b) by ring.
        cbn [bind fst snd fadd]. replace (0 - lgg C a + lgT C (mp4 C rho) - (dc - c)) with (0 - lgg C a + lgT C (mp4 C rho) - dc + c) by ring. reflexivity.
      - destruct (Req_EM_T w (1/3)); [reflexivity|]. cbv zeta. destruct (Rlt_dec (4 * dm / (1 - 3 * w)) 0); [reflexivity|]. destruct (Rlt_dec w (-1/3)); [reflexivity|].
        cbn [bind fst snd fadd]. replace (b_end b + 4 * dm / (1 - 3 * w) + c) with (b_end b + c + 4 * dm / (1 - 3 * w)) by ring. reflexivity. }
    rewrite E. destruct (pure_N_star_reh C a b dm dc) as [r|e]; [|reflexivity]. cbn [bind fst snd]. unfold omoved. cbn [o_dc o_ls o_nc o_ns o_dm o_nreh o_dn o_w o_rho o_N0 o_a0 o_OmK].
    reflexivity.
  - unfold pure_flat_reheating. destruct (bad_reheating a); [reflexivity|].
    change (pure_reh_cases C a (moved c b)) with (pure_reh_cases C a b). change (base_end C a (moved c b)) with (base_end C a b).
    destruct (pure_reh_cases C a b) as [r|e]; [|reflexivity]. cbn [bind]. cbv zeta. cbn [moved b_beg b_end b_Hbeg b_Hend]. fold (moved c b).
    set (ls := 0 + lgK C - (base_end C a b - fst (fst (fst r)) - b_end b)).
    replace (0 + lgK C - (base_end C a b - fst (fst (fst r)) - (b_end b + c))) with (ls + c) by (unfold ls; ring).
    destruct (Rlt_dec (ls + c) (b_beg b + c + ln (b_Hbeg b))), (Rlt_dec ls (b_beg b + ln (b_Hbeg b))); try lra; [reflexivity|].
    destruct (Rlt_dec (b_end b + c + ln (b_Hend b)) (ls + c)), (Rlt_dec (b_end b + ln (b_Hend b)) ls); try lra; [reflexivity|].
    rewrite maskedN_moved, maskedL_moved, combine_mv, interp_mv.
    destruct (interp1d (combine (maskedL b) (maskedN b)) ls) as [nc|e]; [|reflexivity]. cbn [bind].
    unfold omoved. cbn [o_dc o_ls o_nc o_ns o_dm o_nreh o_dn o_w o_rho o_N0 o_a0 o_OmK].
    replace (base_end C a b - fst (fst (fst r)) - (b_end b + c)) with (base_end C a b - fst (fst (fst r)) - b_end b - c) by ring.
    replace (b_end b + c - (nc + c)) with (b_end b - nc) by ring.
    replace (fadd (Fin (b_end b + c)) (snd (fst (fst r)))) with (fadd (fadd (Fin (b_end b)) (snd (fst (fst r)))) (Fin c))
      by (destruct (snd (fst (fst r))); cbn; try reflexivity; f_equal; ring).
    reflexivity.
Qed.

(** without curvature the flow parameters of a sample do not contain N *)
Lemma flow_of_N q N M H phi dphi : flow_of q 0 N H phi dphi = flow_of q 0 M H phi dphi.
Proof.
  assert (Z : forall x, 0 * x = 0) by (intros; ring).
  unfold flow_of. destruct (a_kind q); cbv zeta; unfold T_get_dH, T_get_d2H, T_get_d3H, N_get_dH, N_get_dH_H, N_get_d2H, N_get_d3H;
    rewrite ?Z, ?(Rmult_0_r 2), ?(Rmult_0_r 4), ?Z; reflexivity.
Qed.

Lemma Fin_map_inj l m : map Fin l = map Fin m -> l = m.
Proof. revert m; induction l as [|x l IH]; intros [|y m] E; try discriminate; [reflexivity|]. injection E as -> E. f_equal. apply IH, E. Qed.
Lemma cHH_moved C a0 d c N : forall H, zipw (fun n h => cHHv C a0 (n + (d - c)) h) (map (fun n => n + c) N) H = zipw (fun n h => cHHv C a0 (n + d) h) N H.
Proof.
  induction N as [|n N IH]; intros [|h H]; try reflexivity. cbn [map zipw]. rewrite IH. replace (n + c + (d - c)) with (n + d) by ring. reflexivity.
Qed.
Lemma flows_moved q c N : forall H ph dp, flows q 0 (map (fun n => n + c) N) H ph dp = flows q 0 N H ph dp.
Proof.
  induction N as [|n N IH]; intros H ph dp; [reflexivity|]. destruct H as [|h H], ph as [|p ph], dp as [|d dp]; try reflexivity.
  cbn [map flows]. rewrite IH, (flow_of_N q (n + c) n). reflexivity.
Qed.
Lemma at_nc_moved p c vs : at_nc (mkpin (p_K p) (map (fun n => n + c) (p_N p)) (p_H p) (p_phi p) (p_dphi p) (p_lk p) (p_nc p + c)) vs = at_nc p vs.
Proof.
  unfold at_nc. cbn [p_N p_nc]. rewrite !interp_fl_fin, combine_mv0, interp_mv.
  destruct (interp1d (combine (p_N p) vs) (p_nc p)) as [v|e]; [|reflexivity]. cbn [bind]. rewrite Rplus_0_r. reflexivity.
Qed.
Lemma p_of_moved C b o ph dp c : p_of C (moved c b) (omoved c o) ph dp =
  let p := p_of C b o ph dp in mkpin (p_K p) (map (fun n => n + c) (p_N p)) (p_H p) (p_phi p) (p_dphi p) (p_lk p) (p_nc p + c).
Proof.
  unfold p_of. cbv zeta. cbn [p_K p_N p_H p_phi p_dphi p_lk p_nc]. rewrite umask_moved, remask_moved, maskedN_moved, maskedL_moved.
  cbn [moved b_K b_H omoved o_nc o_ls]. f_equal. rewrite map_map. apply map_ext. intros x. ring.
Qed.

(** Adding a constant to all numbers of e-folds of a flat background changes neither the outcome of the
    calibration (exception, warnings) nor any attribute that does not refer to the origin; the others
    move along. *)
Theorem C102_origin : forall C S q a s s' b c ph dp,
  consts_ok C -> sane a -> a_K q = 0 -> b_K b = 0 -> background s b -> background s' (moved c b) -> fields s ph dp -> fields s' ph dp ->
  ca_background a = None -> documented (ca_approx a) (ca_order a) -> (3 <= o_k (ca_opts a))%nat ->
  snd (calibrate_scale_factor C S q a s') = snd (calibrate_scale_factor C S q a s) /\
  (forall s1 w, calibrate_scale_factor C S q a s = (s1, Ok w) ->
     exists s1', calibrate_scale_factor C S q a s' = (s1', Ok w) /\ agree observable s1 s1' /\ moved_attrs c s1 s1').
Proof.
  intros C S q a s s' b c ph dp HC HA KQ KB HB HB' HF HF' HN HD H3.
  destruct (compare C S q q a s s' b (moved c b) (omoved c) ph dp ph dp HC HA HB HB' HN HF HF' H3) as [R1 R2].
  - intros p. apply documented_spl. exact HD.
  - rewrite KQ. apply pure_moved.
  - apply warns_moved.
  - intros o. rewrite p_of_moved. cbv zeta. apply spl_val_ext; try reflexivity.
    + unfold pflows. cbn [p_K p_N p_H p_phi p_dphi p_of]. rewrite KB. apply flows_moved.
    + intros vs. apply at_nc_moved.
  - split; [exact R1|]. intros s1 w E. destruct (R2 s1 w E) as (s1' & o & kn & E' & EP & L & L'). exists s1'. split; [exact E'|].
    destruct L as (C1 & Q1 & G1 & G2). destruct L' as (C2 & Q2 & G1' & G2').
    destruct C1 as (((A1 & A2 & A3 & A4 & A5 & A6 & A7 & A8 & A9 & A10 & A11 & A12) & BG1 & A13 & A14) & B1 & B2 & B3 & B4 & B5 & B6 & B7 & B8 & B9 & B10).
    destruct C2 as (((A1' & A2' & A3' & A4' & A5' & A6' & A7' & A8' & A9' & A10' & A11' & A12') & BG2 & A13' & A14') & B1' & B2' & B3' & B4' & B5' & B6' & B7' & B8' & B9' & B10').
    destruct BG1 as (_ & _ & _ & _ & BM1 & _). destruct BG2 as (_ & _ & _ & _ & BM2 & _).
    destruct Q1 as (S1 & S2 & S3 & S4 & S5 & S6 & S7). destruct Q2 as (S1' & S2' & S3' & S4' & S5' & S6' & S7').
    rewrite remask_moved in *. rewrite ?maskedL_moved in *.
    cbn [moved remask b_mask b_N b_H b_beg b_end b_Hend omoved o_dc o_ls o_nc o_ns o_dm o_nreh o_dn o_w o_rho o_N0 o_a0 o_OmK] in *.
    assert (NN : map (fun n => n + (o_dc o - c)) (map (fun n => n + c) (b_N b)) = map (fun n => n + o_dc o) (b_N b)) by (rewrite map_map; apply map_ext; intros; ring).
    assert (LL : map (fun x => x + ln (K_STAR C) - (o_ls o + c)) (map (fun x => x + c) (maskedL (remask b))) = map (fun x => x + ln (K_STAR C) - o_ls o) (maskedL (remask b)))
      by (rewrite map_map; apply map_ext; intros; ring).
    assert (ZZ : zipw (fun n h => cHHv C (o_a0 o) (n + (o_dc o - c)) h) (map (fun n => n + c) (b_N b)) (b_H b) = zipw (fun n h => cHHv C (o_a0 o) (n + o_dc o) h) (b_N b) (b_H b)).
    { apply cHH_moved. }
    rewrite fadd_shift in B4'. rewrite NN in B1'. rewrite LL in A14', B7'. rewrite ZZ in B9'.
    replace (b_beg b + c + (o_dc o - c)) with (b_beg b + o_dc o) in * by ring.
    replace (b_end b + c + (o_dc o - c)) with (b_end b + o_dc o) in * by ring.
    replace (o_nc o + c + (o_dc o - c)) with (o_nc o + o_dc o) in * by ring.
    split.
    + unfold scal, arr in *. apply agree_list. unfold observable. repeat (constructor; [eapply two_gets; eassumption|]). constructor.
    + unfold moved_attrs, scal, arr in *.
      split; [intros x X; rewrite A1 in X; injection X as <-; exact A1'|].
      split; [intros x X; rewrite A2 in X; injection X as <-; exact A2'|].
      split; [intros x X; rewrite A3 in X; injection X as <-; exact A3'|].
      split; [intros x X; rewrite A6 in X; injection X as <-; exact A6'|].
      split; [intros x X; rewrite B8 in X; injection X as X; rewrite B8'; do 2 f_equal|].
      { apply Fin_map_inj in X. rewrite <- X. rewrite !map_map. apply map_ext. intros y. rewrite exp_plus. reflexivity. }
      intros x X. rewrite A13 in X. injection X as <-. rewrite A13', exp_plus. do 3 f_equal. unfold Rdiv. ring.
Qed.

(** the example object with the e-folds counted from 5 instead of 0 *)
Definition exs_moved : attrs :=
  [("K", VF (Fin 0)); ("_N", VA (map Fin [0+5; 1+5; 2+5; 3+5])); ("H", VA (map Fin [1; 1; 1; 1])); ("_logaH", VA (map Fin (logaH (moved 5 (exb 0)))));
   ("inflation_mask", VB [true; true; true; true]); ("_N_beg", VF (Fin (-1+5))); ("_N_end", VF (Fin (4+5))); ("N_tot", VF (Fin (4+5 - (-1+5))));
   ("H_end", VF (Fin 1)); ("V_end", VF (Fin 1)); ("_logaH_beg", VF (Fin (-1+5 + ln 1))); ("_logaH_end", VF (Fin (4+5 + ln 1)));
   ("phi", VA (map Fin [4; 3; 2; 1])); ("dphidt", VA (map Fin [1/2; 1/2; 1/2; 1/2]))].
Theorem C102_nonvacuous U : background (exs 0) (exb 0) /\ background exs_moved (moved 5 (exb 0)) /\
  fields (exs 0) [4; 3; 2; 1] [1/2; 1/2; 1/2; 1/2] /\ fields exs_moved [4; 3; 2; 1] [1/2; 1/2; 1/2; 1/2] /\ documented (ca_approx ex36) (ca_order ex36) /\
  exists s1 w s1', calibrate_scale_factor exC exS (mkaeqs AT 0 U) ex36 (exs 0) = (s1, Ok w) /\ scal s1 "_N_cross" (5/2) /\
    calibrate_scale_factor exC exS (mkaeqs AT 0 U) ex36 exs_moved = (s1', Ok w) /\ scal s1' "_N_cross" (5/2 + 5).
Proof.
  assert (B : background exs_moved (moved 5 (exb 0))).
  { unfold background, scal, arr. repeat (split; [first [reflexivity | cbn; lra | cbn; repeat constructor; lra]|]). cbn. repeat constructor; cbn; lra. }
  assert (F : fields exs_moved [4; 3; 2; 1] [1/2; 1/2; 1/2; 1/2]) by (split; reflexivity).
  assert (D : documented (ca_approx ex36) (ca_order ex36)) by (right; right; left; split; [reflexivity|exists 3%Z; split; [reflexivity|lia] ]).
  split; [apply exs_bg|]. split; [exact B|]. split; [apply exs_fields|]. split; [exact F|]. split; [exact D|].
  destruct (C36_nonvacuous U) as (s1 & w & E & SN & _ & X). exists s1, w.
  destruct (C102_origin exC exS (mkaeqs AT 0 U) ex36 (exs 0) exs_moved (exb 0) 5 _ _ exC_ok SN eq_refl eq_refl (exs_bg 0) B (exs_fields 0) F eq_refl D ltac:(cbn; lia)) as [_ R].
  destruct (R s1 w E) as (s1' & E' & _ & MV). exists s1'. split; [exact E|]. split; [exact X|]. split; [exact E'|]. apply MV, X.
Qed.
