(** Comparing the calibrations of two solution objects. *)
From Coq Require Import Reals List String ZArith Bool Lra Lia.
From Verif Require Import Base Model.Equations Model.Background Model.Float Model.Solution Model.Interp Model.State Model.Reheating
  Model.ApproxPower Model.Calibrate Spec.CalibSpec Proofs.BaseLemmas Proofs.FloatLemmas Proofs.DictLemmas Proofs.StateLemmas Proofs.CalibFrame
  Proofs.CalibPure Proofs.CalibPure2 Proofs.CalibPure3 Proofs.CalibRun Proofs.PowerRun Proofs.CalibResult Proofs.CalibTotal.
Import ListNotations.
Open Scope R_scope.
Open Scope string_scope.

(** ** interpolation tables moved by (c, d) *)
Definition mv (c d : R) (q : R * R) : R * R := (fst q + c, snd q + d).
Lemma insert_mv c d q l : insert_x (mv c d q) (map (mv c d) l) = map (mv c d) (insert_x q l).
Proof.
  induction l as [|h t IH]; [reflexivity|]. cbn [map insert_x]. cbn [mv fst].
  destruct (Rle_dec (fst q + c) (fst h + c)), (Rle_dec (fst q) (fst h)); try lra; [reflexivity|]. cbn [map]. rewrite IH. reflexivity.
Qed.
Lemma sort_mv c d l : sort_x (map (mv c d) l) = map (mv c d) (sort_x l).
Proof. induction l as [|h t IH]; [reflexivity|]. cbn [map sort_x]. rewrite IH. apply insert_mv. Qed.
Lemma seg_mv c d l : forall p0 p1 x, seg_value (map (mv c d) (p0 :: p1 :: l)) (x + c) = seg_value (p0 :: p1 :: l) x + d.
Proof.
  induction l as [|p2 l IH]; intros [x0 y0] [x1 y1] x.
  - cbn [map mv fst snd seg_value]. replace (y1 + d - (y0 + d)) with (y1 - y0) by ring. replace (x1 + c - (x0 + c)) with (x1 - x0) by ring.
    replace (x + c - (x0 + c)) with (x - x0) by ring. ring.
  - change (seg_value (map (mv c d) ((x0, y0) :: (x1, y1) :: p2 :: l)) (x + c)) with
      (if Rle_dec (x + c) (x1 + c) then (y1 + d - (y0 + d)) / (x1 + c - (x0 + c)) * (x + c - (x0 + c)) + (y0 + d)
       else seg_value (map (mv c d) ((x1, y1) :: p2 :: l)) (x + c)).
    change (seg_value ((x0, y0) :: (x1, y1) :: p2 :: l) x) with
      (if Rle_dec x x1 then (y1 - y0) / (x1 - x0) * (x - x0) + y0 else seg_value ((x1, y1) :: p2 :: l) x).
    destruct (Rle_dec (x + c) (x1 + c)), (Rle_dec x x1); try lra.
    + replace (y1 + d - (y0 + d)) with (y1 - y0) by ring. replace (x1 + c - (x0 + c)) with (x1 - x0) by ring.
      replace (x + c - (x0 + c)) with (x - x0) by ring. ring.
    + apply IH.
Qed.
Lemma last_mv c d l h : last (map (mv c d) l) (mv c d h) = mv c d (last l h).
Proof. induction l as [|a [|a' l] IH]; [reflexivity|reflexivity|]. exact IH. Qed.
Lemma interp_mv c d l x : interp1d (map (mv c d) l) (x + c) = do v <- interp1d l x; Ok (v + d).
Proof.
  unfold interp1d. rewrite sort_mv. destruct (sort_x l) as [|h t]; [reflexivity|]. cbn [map].
  change (mv c d h :: map (mv c d) t) with (map (mv c d) (h :: t)). rewrite last_mv. cbn [mv fst].
  destruct (Rlt_dec (x + c) (fst h + c)), (Rlt_dec x (fst h)); try lra; [reflexivity|].
  destruct (Rlt_dec (fst (last (h :: t) h) + c) (x + c)), (Rlt_dec (fst (last (h :: t) h)) x); try lra; [reflexivity|].
  destruct t as [|p t]; [reflexivity|]. cbn [map bind]. rewrite <- (seg_mv c d t h p x). reflexivity.
Qed.
Lemma combine_mv c d l m : combine (map (fun x => x + c) l) (map (fun x => x + d) m) = map (mv c d) (combine l m).
Proof. revert m; induction l as [|a l IH]; intros [|b m]; cbn; try reflexivity. rewrite IH. reflexivity. Qed.
Lemma combine_mv0 c l m : combine (map (fun x => x + c) l) m = map (mv c 0) (combine l m).
Proof. revert m; induction l as [|a l IH]; intros [|b m]; cbn; try reflexivity. rewrite IH. unfold mv at 2. cbn [fst snd]. rewrite Rplus_0_r. reflexivity. Qed.

(** ** the spectra depend on the flow parameters, H, log k and interpolation at the crossing only *)
Lemma spl_val_ext C S q q' me ord o p p' : pflows q' p' = pflows q p -> p_H p' = p_H p -> p_lk p' = p_lk p ->
  (forall vs, at_nc p' vs = at_nc p vs) -> spl_val C S q' me ord o p' = spl_val C S q me ord o p.
Proof.
  intros EF EH EL EA. unfold spl_val.
  assert (X4 : cross4 q' p' = cross4 q p) by (unfold cross4; rewrite !EA, EF, EH; reflexivity).
  assert (Y1 : forall n, cgs_val C S q' o p' n = cgs_val C S q o p n) by (intros n; unfold cgs_val, cgs_Ps, cgs_Pt; rewrite EF, EH, EL; reflexivity).
  assert (Y2 : llms_val C S q' o p' = llms_val C S q o p) by (unfold llms_val; rewrite X4, EL; reflexivity).
  assert (Y3 : ste_val C S q' o p' = ste_val C S q o p) by (unfold ste_val; rewrite EF, EH, EL; reflexivity).
  assert (Y4 : forall n, arbds_val C S q' o p' n = arbds_val C S q o p n) by (intros n; unfold arbds_val; rewrite X4, EL; reflexivity).
  unfold vals4, vals3. rewrite !Y1, Y2, Y3, !Y4. reflexivity.
Qed.

(** what a successful calibration leaves behind, given the pure part [o] and the knots [kn] *)
Definition left_behind (C : consts) (S : splines) (a : calargs) (b : bg) (o : cout) (kn : list (R * R) * list (R * R)) (s1 : attrs) : Prop :=
  calibrated C s1 b o /\ has_params C S s1 (ca_opts a) kn /\
  dict_get "logk2logP_s" s1 = Some (VSpl (o_k (ca_opts a)) (o_ext (ca_opts a)) (fst kn)) /\
  dict_get "logk2logP_t" s1 = Some (VSpl (o_k (ca_opts a)) (o_ext (ca_opts a)) (snd kn)).
Definition warns (o : cout) : list cal_warning :=
  if flt (o_dn o) (Fin 0) then [NegativeReheating] else if flt (Fin (o_N0 o)) (fadd (o_nreh o) (Fin (o_dc o))) then [ReheatingAfterToday] else [].
Lemma compare C S q q' a s s' b b' g ph dp ph' dp' :
  consts_ok C -> sane a -> background s b -> background s' b' -> ca_background a = None ->
  fields s ph dp -> fields s' ph' dp' -> (3 <= o_k (ca_opts a))%nat ->
  (forall p, spl_val C S q (ca_approx a) (ca_order a) (ca_opts a) p <> Ok None) ->
  pure_first C a (a_K q') b' = (do o <- pure_first C a (a_K q) b; Ok (g o)) ->
  (forall o, warns (g o) = warns o) ->
  (forall o, spl_val C S q' (ca_approx a) (ca_order a) (ca_opts a) (p_of C b' (g o) ph' dp') =
             spl_val C S q (ca_approx a) (ca_order a) (ca_opts a) (p_of C b o ph dp)) ->
  snd (calibrate_scale_factor C S q' a s') = snd (calibrate_scale_factor C S q a s) /\
  (forall s1 w, calibrate_scale_factor C S q a s = (s1, Ok w) ->
     exists s1' o kn, calibrate_scale_factor C S q' a s' = (s1', Ok w) /\ pure_first C a (a_K q) b = Ok o /\
       left_behind C S a b o kn s1 /\ left_behind C S a b' (g o) kn s1').
Proof.
  intros HC HA HB HB' HN HF HF' H3 ND EP EW ES.
  pose proof (calibrate_run C S q a s b HC HA HB HN) as R. pose proof (calibrate_run C S q' a s' b' HC HA HB' HN) as R'.
  rewrite EP in R'.
  destruct (pure_first C a (a_K q) b) as [o|e] eqn:P; cbn [bind] in EP, R'.
  2:{ split; [rewrite R, R'; reflexivity|]. intros s1 w E. rewrite E in R. discriminate. }
  clear R R'.
  pose proof (calibrate_full C S q a s b o ph dp HC HA HB HN P HF H3) as R.
  pose proof (calibrate_full C S q' a s' b' (g o) ph' dp' HC HA HB' HN EP HF' H3) as R'.
  rewrite ES in R'. pose proof (ND (p_of C b o ph dp)) as N.
  destruct (spl_val C S q (ca_approx a) (ca_order a) (ca_opts a) (p_of C b o ph dp)) as [[v|]|e]; [|contradiction|].
  2:{ split; [rewrite R, R'; reflexivity|]. intros s1 w E. rewrite E in R. discriminate. }
  destruct R as (t & w & kn & E & CB & _ & _ & V & PA & SP & _ & W).
  destruct R' as (t' & w' & kn' & E' & CB' & _ & _ & V' & PA' & SP' & _ & W').
  assert (WW : w' = w) by (rewrite W, W'; apply EW).
  assert (EK : kn' = kn). { rewrite V in V'. injection V' as X Y. destruct kn, kn'; cbn in *; congruence. }
  rewrite WW in E'. subst kn'. clear W W' WW w'. split; [rewrite E, E'; reflexivity|]. intros s1 w1 E1. rewrite E in E1. injection E1 as <- <-.
  exists t', o, kn. split; [exact E'|]. split; [reflexivity|]. rewrite V in SP, SP'. unfold has_spl in SP, SP'. cbn [fst snd] in SP, SP'.
  split; (split; [assumption|split; [assumption|]]); [exact SP|exact SP'].
Qed.
