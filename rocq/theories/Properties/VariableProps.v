(** Cosmic time and e-folds as independent variable give the same calibrated solution, property C103. *)
From Coq Require Import Reals List String ZArith Bool Lra Lia.
From Verif Require Import Base Model.Equations Model.Background Model.Float Model.Solution Model.Interp Model.State Model.Reheating
  Model.ApproxPower Model.Calibrate Spec.CalibSpec Proofs.BaseLemmas Proofs.FloatLemmas Proofs.DictLemmas Proofs.StateLemmas Proofs.CalibFrame
  Proofs.CalibPure Proofs.CalibPure2 Proofs.CalibPure3 Proofs.CalibRun Proofs.PowerRun Proofs.CalibResult Proofs.CalibTotal Proofs.CalibCompare
  Properties.CalibProps Properties.CalibProps2 Properties.FlowTableProps Properties.HistoryProps.
Import ListNotations.
Open Scope R_scope.
Open Scope string_scope.

(** every sample in use moves and has epsilon_2 <> 0 *)
Definition rolling (U : potfun) (b : bg) (ph dp : list R) : Prop :=
  forall i n h x p, nth_error (b_mask b) i = Some true -> nth_error (b_N b) i = Some n -> nth_error (b_H b) i = Some h ->
    nth_error ph i = Some x -> nth_error dp i = Some p -> p <> 0 /\ fe2 (flow_of (mkaeqs AN 0 U) 0 n h x p) <> 0.
Lemma flows_same U m : forall N H ph dp, Forall (fun h => 0 < h) H ->
  (forall i n h x p, nth_error m i = Some true -> nth_error N i = Some n -> nth_error H i = Some h ->
    nth_error ph i = Some x -> nth_error dp i = Some p -> p <> 0 /\ fe2 (flow_of (mkaeqs AN 0 U) 0 n h x p) <> 0) ->
  List.length N = List.length m -> List.length H = List.length m -> List.length ph = List.length m -> List.length dp = List.length m ->
  flows (mkaeqs AT 0 U) 0 (select m N) (select m H) (select m ph) (select m (zipw Rmult H dp)) =
  flows (mkaeqs AN 0 U) 0 (select m N) (select m H) (select m ph) (select m dp).
Proof.
  induction m as [|c m IH]; intros [|n N] [|h H] [|x ph] [|p dp] FH R; cbn [List.length]; try discriminate; intros L1 L2 L3 L4; [reflexivity|].
  inversion FH as [|? ? H1 H2]; subst.
  assert (E : flows (mkaeqs AT 0 U) 0 (select m N) (select m H) (select m ph) (select m (zipw Rmult H dp)) =
              flows (mkaeqs AN 0 U) 0 (select m N) (select m H) (select m ph) (select m dp)).
  { apply IH; try lia; [exact H2|]. intros i. exact (R (S i)). }
  cbn [zipw select]. destruct c; [|exact E]. cbn [flows]. rewrite E. f_equal.
  destruct (R O n h x p eq_refl eq_refl eq_refl eq_refl eq_refl) as [R1 R2].
  exact (proj2 (C99_same_numbers U n h x p H1 R1) R2).
Qed.
Lemma umask_true b i : nth_error (umask b) i = Some true -> nth_error (b_mask b) i = Some true.
Proof.
  unfold umask. generalize (first_occ [] (map Fin (logaH b))). generalize (b_mask b). induction i as [|i IH]; intros [|c m] [|d f]; cbn [zipw nth_error]; try discriminate.
  - intros [= H]. apply andb_prop in H. destruct H as [-> _]. reflexivity.
  - apply IH.
Qed.

(** Two flat runs of the same background, one with cosmic time as independent variable and dphi/dt, the other
    with e-folds and dphi/dN = (dphi/dt)/H: the calibration has the same outcome (exception, warnings) and
    the calibrated attributes, the spectra and their parameters are the same numbers. *)
Theorem C103_same_calibration : forall C S U a sT sN b ph dp,
  consts_ok C -> sane a -> b_K b = 0 -> background sT b -> background sN b ->
  arr sT "phi" ph -> arr sT "dphidt" (zipw Rmult (b_H b) dp) ->
  arr sN "phi" ph -> arr sN "dphidN" dp -> dict_get "dphidt" sN = None ->
  List.length ph = List.length (b_N b) -> List.length dp = List.length (b_N b) -> rolling U b ph dp ->
  ca_background a = None -> documented (ca_approx a) (ca_order a) -> (3 <= o_k (ca_opts a))%nat ->
  let qT := mkaeqs AT 0 U in let qN := mkaeqs AN 0 U in
  snd (calibrate_scale_factor C S qN a sN) = snd (calibrate_scale_factor C S qT a sT) /\
  (forall s1 w, calibrate_scale_factor C S qT a sT = (s1, Ok w) ->
     exists s1', calibrate_scale_factor C S qN a sN = (s1', Ok w) /\ agree (calibration ++ reheating ++ spectrum_splines) s1 s1').
Proof.
  intros C S U a sT sN b ph dp HC HA KB HB HB' P1 V1 P2 V2 NV L1 L2 RO HN HD H3 qT qN.
  assert (HF : fields sT ph (zipw Rmult (b_H b) dp)). { split; [exact P1|]. unfold arr in V1 |- *. rewrite has_key_get, V1. exact V1. }
  assert (HF' : fields sN ph dp). { split; [exact P2|]. unfold arr in V2 |- *. rewrite has_key_get, NV. exact V2. }
  assert (LM : List.length (b_mask b) = List.length (b_N b)) by apply HB. assert (LH : List.length (b_H b) = List.length (b_N b)) by apply HB.
  assert (LU : List.length (umask b) = List.length (b_N b)).
  { unfold umask. rewrite zipw_length; rewrite first_occ_length, map_length; unfold logaH; rewrite logaH_length; congruence. }
  destruct (compare C S qT qN a sT sN b b (fun o => o) ph (zipw Rmult (b_H b) dp) ph dp HC HA HB HB' HN HF HF' H3) as [R1 R2]; try reflexivity.
  - intros p. apply documented_spl. exact HD.
  - cbn [qT qN a_K]. destruct (pure_first C a 0 b); reflexivity.
  - intros o. apply spl_val_ext; try reflexivity. unfold pflows, p_of. cbn [p_K p_N p_H p_phi p_dphi]. rewrite KB. unfold maskedN. cbn [remask b_mask b_N].
    symmetry. apply flows_same; try congruence; [apply HB|]. intros i n h x p M. apply RO, umask_true, M.
  - split; [exact R1|]. intros s1 w E. destruct (R2 s1 w E) as (s1' & o & kn & E' & EP & L & L'). exists s1'. split; [exact E'|].
    destruct L as (C1 & Q1 & G1 & G2). destruct L' as (C2 & Q2 & G1' & G2').
    destruct C1 as (((A1 & A2 & A3 & A4 & A5 & A6 & A7 & A8 & A9 & A10 & A11 & A12) & BG1 & A13 & A14) & B1 & B2 & B3 & B4 & B5 & B6 & B7 & B8 & B9 & B10).
    destruct C2 as (((A1' & A2' & A3' & A4' & A5' & A6' & A7' & A8' & A9' & A10' & A11' & A12') & BG2 & A13' & A14') & B1' & B2' & B3' & B4' & B5' & B6' & B7' & B8' & B9' & B10').
    destruct BG1 as (_ & _ & _ & _ & BM1 & _). destruct BG2 as (_ & _ & _ & _ & BM2 & _).
    destruct Q1 as (S1 & S2 & S3 & S4 & S5 & S6 & S7). destruct Q2 as (S1' & S2' & S3' & S4' & S5' & S6' & S7').
    unfold scal, arr in *. apply agree_list. unfold calibration, reheating, spectrum_splines. cbn [app]. repeat (constructor; [eapply two_gets; eassumption|]). constructor.
Qed.
(** the example object, and the same with dphidN; the potential has slope 1 *)
Definition slope1 : potfun := mkpotfun (fun _ => 1) (fun _ => 1) (fun _ => 0) (fun _ => 0).
Definition exs_N : attrs := (List.filter (fun kv => negb (String.eqb (fst kv) "dphidt")) (exs 0) ++ [("dphidN", VA (map Fin [1/2; 1/2; 1/2; 1/2]))])%list.
Theorem C103_nonvacuous : background exs_N (exb 0) /\ rolling slope1 (exb 0) [4; 3; 2; 1] [1/2; 1/2; 1/2; 1/2] /\
  exists s1 w s1', calibrate_scale_factor exC exS (mkaeqs AT 0 slope1) ex36 (exs 0) = (s1, Ok w) /\
    calibrate_scale_factor exC exS (mkaeqs AN 0 slope1) ex36 exs_N = (s1', Ok w) /\ agree (calibration ++ reheating ++ spectrum_splines) s1 s1'.
Proof.
  assert (B : background exs_N (exb 0)).
  { unfold background, scal, arr. repeat (split; [first [reflexivity | cbn; lra | cbn; repeat constructor; lra]|]). cbn. repeat constructor; cbn; lra. }
  assert (RO : rolling slope1 (exb 0) [4; 3; 2; 1] [1/2; 1/2; 1/2; 1/2]).
  { intros i n h x p _ _ EH _ EP. assert (h = 1) by (destruct i as [|[|[|[|i] ] ] ]; cbn in EH; try congruence; destruct i; discriminate).
    assert (p = 1/2) by (destruct i as [|[|[|[|i] ] ] ]; cbn in EP; try congruence; destruct i; discriminate). subst. split; [lra|].
    unfold flow_of. cbn [a_kind a_U fe2 pdV slope1]. unfold N_get_epsilon_2H, N_get_d2H, N_get_dH, N_get_d2phi, N_get_dH_H. intros X. field_simplify in X; lra. }
  split; [exact B|]. split; [exact RO|].
  destruct (C36_nonvacuous slope1) as (s1 & w & E & SN & _). exists s1, w.
  destruct (C103_same_calibration exC exS slope1 ex36 (exs 0) exs_N (exb 0) [4; 3; 2; 1] [1/2; 1/2; 1/2; 1/2] exC_ok SN eq_refl (exs_bg 0) B) as [_ R];
    try reflexivity; try exact RO; try (cbn; lia).
  { unfold arr. cbn. rewrite !Rmult_1_l. reflexivity. }
  { right; right; left. split; [reflexivity|]. exists 3%Z. split; [reflexivity|lia]. }
  destruct (R s1 w E) as (s1' & E' & AG). exists s1'. auto.
Qed.
