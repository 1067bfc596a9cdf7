(** Queries of the approximate power spectra along histories of calls: C46, C47. *)
From Coq Require Import Reals List String ZArith Bool Lra Lia.
From Verif Require Import Base Model.Equations Model.Background Model.Float Model.Solution Model.Interp Model.State Model.Reheating
  Model.ApproxPower Model.Calibrate Spec.CalibSpec Proofs.BaseLemmas Proofs.FloatLemmas Proofs.DictLemmas Proofs.StateLemmas Proofs.CalibFrame
  Proofs.CalibPure Proofs.CalibPure2 Proofs.CalibPure3 Proofs.CalibRun Proofs.PowerRun Proofs.CalibResult Proofs.CalibTotal Proofs.CalibErrors Proofs.PowerHist
  Properties.CalibProps Properties.CalibProps2.
Import ListNotations.
Open Scope R_scope.
Open Scope string_scope.

(** ** histories *)
(** one call on the solution object after its calibration: [sol.derive_approx_power(method, order)],
    [sol.P_s_approx(k, method, order)] or [sol.P_t_approx(k, method, order)] *)
Inductive act := Derive (me : string) (ord : option Z) | Query (tensor : bool) (k : R) (me : string) (ord : option Z).
Definition st_of (tensor : bool) : string := if tensor then "t" else "s".

Section Histories.
Variables (C : consts) (S : splines) (q : aeqs) (o : splopts).
(** [sol.P_s_approx] / [sol.P_t_approx] *)
Definition query (tensor : bool) (k : R) (me : string) (ord : option Z) : M R := P_approx C S q (st_of tensor) k me ord o.
(** the same query right after deriving that method anew from the current state of the object *)
Definition fresh_query (tensor : bool) (k : R) (me : string) (ord : option Z) : M R :=
  derive_approx_power C S q me ord o;; query tensor k me ord.
Definition perform (a : act) (s : attrs) : attrs :=
  match a with
  | Derive me ord => fst (derive_approx_power C S q me ord o s)
  | Query t k me ord => fst (query t k me ord s)
  end.
(** the object after the calls; an exception of a call is caught by the user *)
Definition after (acts : list act) (s : attrs) : attrs := fold_left (fun s a => perform a s) acts s.

Lemma robust_after I acts : robust C S q o I -> forall s, I s -> I (after acts s).
Proof.
  intros HR. induction acts as [|a l IH]; intros s Hs; [exact Hs|]. cbn [after fold_left]. apply IH. destruct a as [me ord|t k me ord]; cbn [perform].
  - exact (robust_derive C S q o I me ord HR s Hs).
  - exact (robust_P C S q o I (st_of t) k me ord HR s Hs).
Qed.

(** value of a stored pair of splines *)
Definition pv (tensor : bool) (k : R) (v : val * val) : res R :=
  match (if tensor then snd v else fst v) with VSpl n e l => Ok (exp (spl_eval S n e l 0 (ln k))) | _ => Raise TypeError end.
Lemma call_run key k s w : dict_get key s = Some w -> snd (call_spl S key k s) = match w with VSpl n e l => Ok (exp (spl_eval S n e l 0 (ln k))) | _ => Raise TypeError end.
Proof. intros E. unfold call_spl, bindM, getS, get_S, getattr. rewrite E. destruct w; reflexivity. Qed.
Lemma call_one suf k t s v : has_one s suf v -> snd (call_spl S ("P_" ++ st_of t ++ "_approx_" ++ suf) k s) = pv t k v.
Proof. intros [G1 G2]. destruct t; cbn [st_of String.append] in *; erewrite call_run by eassumption; reflexivity. Qed.
Lemma snd_bind {A B} (m : M A) (f : A -> M B) s r : (forall e, snd (m s) = Raise e -> r = Raise e) -> (forall a, snd (m s) = Ok a -> snd (f a (fst (m s))) = r) -> snd (bindM m f s) = r.
Proof. intros H1 H2. unfold bindM. destruct (m s) as [s1 [a|e]]; cbn [fst snd] in *; [apply H2; reflexivity|symmetry; apply H1; reflexivity]. Qed.
Lemma run_hasattr {B} k (f : bool -> M B) s : bindM (hasattr k) f s = f (has_key k s) s. Proof. reflexivity. Qed.
Lemma key_st t suf : ("P_" ++ st_of t ++ "_approx_") ++ suf = "P_" ++ st_of t ++ "_approx_" ++ suf. Proof. destruct t; reflexivity. Qed.
Lemma one_key t suf : In ("P_" ++ st_of t ++ "_approx_" ++ suf) (one_keys suf). Proof. destruct t; cbn; auto. Qed.

Variable p : pin.
Definition bindR {A B} (r : res A) (f : A -> res B) : res B := match r with Ok a => f a | Raise e => Raise e end.
Lemma query_LLMS s t k ord : ll_inv C S q o p s -> snd (query t k "LLMS" ord s) = bindR (llms_val C S q o p) (pv t k).
Proof.
  intros [B G]. unfold query, P_approx. cbn [String.eqb Ascii.eqb Bool.eqb]. rewrite run_hasattr, key_st, has_key_get.
  destruct G as [A|(v & E & G)].
  - rewrite (A _ (one_key t "LLMS")). cbv iota. pose proof (LLMS_run C S q o s p (proj1 B)) as R. unfold bindR.
    apply snd_bind; destruct (llms_val C S q o p) as [v|e'].
    + intros e E. destruct R as (s' & ER & _). rewrite ER in E. discriminate.
    + intros e E. rewrite R in E. injection E as ->. reflexivity.
    + intros [] _. destruct R as (s' & ER & G & _). rewrite ER. cbn [fst]. exact (call_one "LLMS" k t s' v G).
    + intros [] E. rewrite R in E. discriminate.
  - pose proof G as [G1 G2]. assert (D : exists w, dict_get ("P_" ++ st_of t ++ "_approx_" ++ "LLMS") s = Some w) by (destruct t; cbn [st_of String.append] in *; eauto).
    destruct D as [w Dw]. rewrite Dw. cbv iota. rewrite E. exact (call_one "LLMS" k t s v G).
Qed.
Lemma query_STE s t k ord : st_inv C S q o p s -> snd (query t k "STE" ord s) = bindR (ste_val C S q o p) (pv t k).
Proof.
  intros [B G]. unfold query, P_approx. cbn [String.eqb Ascii.eqb Bool.eqb]. rewrite run_hasattr, key_st, has_key_get.
  destruct G as [A|(v & E & G)].
  - rewrite (A _ (one_key t "STE")). cbv iota. pose proof (STE_run C S q o s p (proj1 B)) as R. unfold bindR.
    apply snd_bind; destruct (ste_val C S q o p) as [v|e'].
    + intros e E. destruct R as (s' & ER & _). rewrite ER in E. discriminate.
    + intros e E. rewrite R in E. injection E as ->. reflexivity.
    + intros [] _. destruct R as (s' & ER & G & _). rewrite ER. cbn [fst]. exact (call_one "STE" k t s' v G).
    + intros [] E. rewrite R in E. discriminate.
  - pose proof G as [G1 G2]. assert (D : exists w, dict_get ("P_" ++ st_of t ++ "_approx_" ++ "STE") s = Some w) by (destruct t; cbn [st_of String.append] in *; eauto).
    destruct D as [w Dw]. rewrite Dw. cbv iota. rewrite E. exact (call_one "STE" k t s v G).
Qed.
Lemma cgs_ones s v : has_cgs s v -> let '(v0, v1, v2, v3) := v in has_one s "CGS0" v0 /\ has_one s "CGS1" v1 /\ has_one s "CGS2" v2 /\ has_one s "CGS3" v3.
Proof. destruct v as [[[v0 v1] v2] v3]. unfold has_cgs, has_one. cbn [String.append]. tauto. Qed.
Lemma query_CGS s t k n : (0 <= n <= 3)%Z -> cgs_inv C S q o p s -> snd (query t k "CGS" (Some n) s) =
  bindR (vals4 (cgs_val C S q o p)) (fun v => match pick (Some n) v with Some w => pv t k w | None => Raise TypeError end).
Proof.
  intros Hn [B (v & E & G)]. rewrite E. apply cgs_ones in G. destruct v as [[[v0 v1] v2] v3]. destruct G as (G0 & G1 & G2 & G3).
  unfold query, P_approx. cbn [String.eqb Ascii.eqb Bool.eqb]. rewrite !key_st. rewrite andb_false_r, orb_false_r. cbn [bindR pick order_is].
  assert (D : (n = 0 \/ n = 1 \/ n = 2 \/ n = 3)%Z) by lia. destruct D as [->|[->|[->| ->]]]; cbn [Z.eqb Pos.eqb order_is orb]; erewrite call_one by eassumption; reflexivity.
Qed.
Lemma query_ARBDS s t k n : (1 <= n <= 3)%Z -> base_inv p s -> snd (query t k "ARBDS" (Some n) s) =
  bindR (vals3 (arbds_val C S q o p)) (fun v => match pick3 (Some n) v with Some w => pv t k w | None => Raise TypeError end).
Proof.
  intros Hn [HP A]. unfold query, P_approx. cbn [String.eqb Ascii.eqb Bool.eqb]. rewrite run_hasattr, !key_st, has_key_get, (A _ (one_key t "ARBDS")). cbv iota.
  pose proof (ARBDS_run C S q o (Some n) s p HP) as R. unfold bindR.
  apply snd_bind; destruct (vals3 (arbds_val C S q o p)) as [v|e'].
  + intros e E. destruct R as (s' & ER & _). rewrite ER in E. discriminate.
  + intros e E. rewrite R in E. injection E as ->. reflexivity.
  + intros [] _. destruct R as (s' & ER & G & _). rewrite ER. cbn [fst]. destruct v as [[v1 v2] v3]. destruct G as (G1 & G2 & G3).
    assert (D : (n = 1 \/ n = 2 \/ n = 3)%Z) by lia. cbn [pick3].
    destruct D as [->|[->| ->]]; cbn [Z.eqb Pos.eqb order_is orb]; erewrite call_one by eassumption; reflexivity.
  + intros [] E. rewrite R in E. discriminate.
Qed.
(** a query and a fresh query agree if the invariant of the method holds *)
Definition inv (me : string) (s : attrs) : Prop :=
  if String.eqb me "CGS" then cgs_inv C S q o p s else if String.eqb me "LLMS" then ll_inv C S q o p s
  else if String.eqb me "STE" then st_inv C S q o p s else base_inv p s.
Definition value (tensor : bool) (k : R) (me : string) (ord : option Z) : res R :=
  bindR (spl_val C S q me ord o p) (fun w => match w with Some v => pv tensor k v | None => Raise TypeError end).
Lemma bind_bindR {A B} (r : res A) (f : A -> res B) : bind r f = bindR r f. Proof. reflexivity. Qed.
Lemma inv_robust me ord : documented me ord -> robust C S q o (inv me).
Proof.
  intros [->|[->|[[-> _]|[-> _]]]]; unfold inv; cbn [String.eqb Ascii.eqb Bool.eqb]; [apply robust_ll|apply robust_st|apply robust_cgs|apply robust_base].
Qed.
Lemma inv_powered me s : inv me s -> powered s p.
Proof.
  unfold inv. destruct (String.eqb me "CGS"); [intros [[H _] _]; exact H|]. destruct (String.eqb me "LLMS"); [intros [[H _] _]; exact H|].
  destruct (String.eqb me "STE"); [intros [[H _] _]; exact H|]. intros [H _]; exact H.
Qed.
Lemma query_value me ord s t k : documented me ord -> inv me s -> snd (query t k me ord s) = value t k me ord.
Proof.
  intros [->|[->|[[-> (n & -> & Hn)]|[-> (n & -> & Hn)]]]]; unfold inv; cbn [String.eqb Ascii.eqb Bool.eqb]; intros HI.
  - rewrite query_LLMS by exact HI. unfold value, spl_val. cbn [String.eqb Ascii.eqb Bool.eqb]. destruct (llms_val _ _ _ _ _); reflexivity.
  - rewrite query_STE by exact HI. unfold value, spl_val. cbn [String.eqb Ascii.eqb Bool.eqb]. destruct (ste_val _ _ _ _ _); reflexivity.
  - rewrite query_CGS by assumption. unfold value, spl_val. cbn [String.eqb Ascii.eqb Bool.eqb]. destruct (vals4 _); reflexivity.
  - rewrite query_ARBDS by assumption. unfold value, spl_val. cbn [String.eqb Ascii.eqb Bool.eqb]. destruct (vals3 _); reflexivity.
Qed.
Lemma fresh_value me ord s t k : (3 <= o_k o)%nat -> documented me ord -> inv me s -> snd (fresh_query t k me ord s) = value t k me ord.
Proof.
  intros H3 HD HI. unfold fresh_query. pose proof (derive_run C S q me ord o s p (inv_powered me s HI) H3) as R.
  pose proof (documented_spl C S q me ord o p HD) as ND. pose proof (robust_derive C S q o _ me ord (inv_robust me ord HD) s HI) as HI'.
  apply snd_bind.
  - intros e E. unfold value. destruct (spl_val C S q me ord o p) as [[v|]|e'].
    + destruct R as (s' & kn & ER & _). rewrite ER in E. discriminate.
    + contradiction.
    + rewrite R in E. injection E as ->. reflexivity.
  - intros [] _. apply query_value; assumption.
Qed.
End Histories.

Lemma inv_from_fresh C S q o p me ord s : documented me ord ->
  powered s p -> absent (one_keys "ARBDS") s -> (me = "CGS" -> exists v, vals4 (cgs_val C S q o p) = Ok v /\ has_cgs s v) ->
  (me = "LLMS" -> absent (one_keys "LLMS") s \/ exists v, llms_val C S q o p = Ok v /\ has_one s "LLMS" v) ->
  (me = "STE" -> absent (one_keys "STE") s \/ exists v, ste_val C S q o p = Ok v /\ has_one s "STE" v) -> inv C S q o p me s.
Proof.
  intros HD HP A H1 H2 H3. assert (B : base_inv p s) by (split; assumption).
  destruct HD as [->|[->|[[-> _]|[-> _]]]]; unfold inv; cbn [String.eqb Ascii.eqb Bool.eqb].
  - split; [exact B|exact (H2 eq_refl)].
  - split; [exact B|exact (H3 eq_refl)].
  - split; [exact B|exact (H1 eq_refl)].
  - exact B.
Qed.

(** a successful calibration establishes the invariant of the method *)
Lemma calibrated_inv C S q a s b ph dp s1 w me ord :
  consts_ok C -> sane a -> background s b -> fields s ph dp -> ca_background a = None -> (3 <= o_k (ca_opts a))%nat ->
  documented (ca_approx a) (ca_order a) -> absent ["P_s_approx_ARBDS"; "P_t_approx_ARBDS"] s ->
  calibrate_scale_factor C S q a s = (s1, Ok w) -> documented me ord ->
  (me = "ARBDS" \/ me = ca_approx a \/ (me <> "CGS" /\ absent ["P_s_approx_" ++ me; "P_t_approx_" ++ me] s)) ->
  exists o, pure_first C a (a_K q) b = Ok o /\ calibrated C s1 b o /\ fields s1 ph dp /\ inv C S q (ca_opts a) (p_of C b o ph dp) me s1.
Proof.
  intros HC HA HB HF HN H3 HDA HAB E HD HM.
  destruct (calibrate_result C S q a s b s1 w HC HA HB HN E) as (o & EP & CAL & _ & FRS).
  pose proof (calibrate_run C S q a s b HC HA HB HN) as R. rewrite EP in R. destruct R as (sm & w' & CM & _ & FR & EQ).
  set (p := p_of C b o ph dp).
  assert (HFm : fields sm ph dp). { apply (fields_frame s); [exact HF|]. intros kk I. apply FR. revert kk I. apply Forall_forall. repeat constructor; unfold calib_attrs; ni. }
  assert (PWm : powered sm p) by (apply calibrated_powered; assumption).
  assert (ABm : forall suf, documented suf (Some 3%Z) -> absent (one_keys suf) s -> absent (one_keys suf) sm).
  { intros suf DS AB kk I. rewrite FR; [apply AB, I|]. destruct DS as [->|[->|[[-> _]|[-> _]]]]; revert I; cbn [one_keys String.append In]; intros [<-|[<-|[]]]; unfold calib_attrs; ni. }
  assert (D3 : documented "ARBDS" (Some 3%Z)) by (right; right; right; split; [reflexivity|exists 3%Z; split; [reflexivity|lia]]).
  assert (Ed : exists u, derive_approx_power C S q (ca_approx a) (ca_order a) (ca_opts a) sm = (s1, Ok u)).
  { rewrite EQ in E. unfold bindM in E. destruct (derive_approx_power _ _ _ _ _ _ sm) as [s' [u|e]]; [|discriminate]. injection E as <- _. eauto. }
  destruct Ed as [u Ed].
  pose proof (derive_run C S q (ca_approx a) (ca_order a) (ca_opts a) sm p PWm H3) as DR.
  pose proof (documented_spl C S q _ _ (ca_opts a) p HDA) as ND.
  destruct (spl_val C S q (ca_approx a) (ca_order a) (ca_opts a) p) as [[v|]|e]; [|contradiction|rewrite Ed in DR; discriminate].
  destruct DR as (s1' & kn & Ed' & _ & _ & _ & CL). rewrite Ed in Ed'. injection Ed' as <- _. destruct CL as (CL1 & CL2 & CL3 & CL4).
  assert (HI1 : inv C S q (ca_opts a) p me s1).
  { assert (B1 : base_inv p s1).
    { pose proof (robust_derive C S q (ca_opts a) _ (ca_approx a) (ca_order a) (robust_base C S q (ca_opts a) p) sm) as RB. rewrite Ed in RB. apply RB.
      split; [exact PWm|]. apply ABm; [exact D3|exact HAB]. }
    destruct HM as [->|[->|[NC AB]]].
    - exact B1.
    - eapply inv_from_fresh; [exact HDA|apply B1|apply B1|exact CL1| |]; intros EM; right; auto.
    - destruct HD as [->|[->|[[-> _]|[-> _]]]]; [| |contradiction|exact B1].
      + pose proof (robust_derive C S q (ca_opts a) _ (ca_approx a) (ca_order a) (robust_ll C S q (ca_opts a) p) sm) as RB. rewrite Ed in RB. apply RB.
        split; [split; [exact PWm|apply ABm; [exact D3|exact HAB]]|]. left. apply ABm; [left; reflexivity|exact AB].
      + pose proof (robust_derive C S q (ca_opts a) _ (ca_approx a) (ca_order a) (robust_st C S q (ca_opts a) p) sm) as RB. rewrite Ed in RB. apply RB.
        split; [split; [exact PWm|apply ABm; [exact D3|exact HAB]]|]. left. apply ABm; [right; left; reflexivity|exact AB]. }
  exists o. split; [exact EP|]. split; [exact CAL|]. split; [|exact HI1].
  apply (fields_frame s); [exact HF|]. intros kk I. apply FRS. revert kk I. apply Forall_forall. repeat constructor; unfold calib_attrs, power_attrs, derived_attrs; ni.
Qed.

(** ** C46, for the methods whose cached closures belong to this calibration *)
(** After a successful calibration and any further history of derivations and queries, a query returns
    what deriving the method anew from the object in its current state returns; and that is also what it
    returned immediately after the calibration. This covers ARBDS always, the method the calibration
    itself used (in particular CGS, the default), and LLMS or STE if they had not been queried before
    this calibration. Missing with respect to C46: LLMS/STE queried before a re-calibration
    (see [C46_refuted]), and CGS when the calibration used another method. *)
Theorem C46_partial : forall C S q a s b ph dp s1 w acts me ord tensor k,
  consts_ok C -> sane a -> background s b -> fields s ph dp -> ca_background a = None -> (3 <= o_k (ca_opts a))%nat ->
  documented (ca_approx a) (ca_order a) -> absent ["P_s_approx_ARBDS"; "P_t_approx_ARBDS"] s ->
  calibrate_scale_factor C S q a s = (s1, Ok w) -> documented me ord ->
  (me = "ARBDS" \/ me = ca_approx a \/ (me <> "CGS" /\ absent ["P_s_approx_" ++ me; "P_t_approx_" ++ me] s)) ->
  let s2 := after C S q (ca_opts a) acts s1 in
  snd (query C S q (ca_opts a) tensor k me ord s2) = snd (fresh_query C S q (ca_opts a) tensor k me ord s2) /\
  snd (query C S q (ca_opts a) tensor k me ord s2) = snd (fresh_query C S q (ca_opts a) tensor k me ord s1) /\
  snd (query C S q (ca_opts a) tensor k me ord s1) = snd (fresh_query C S q (ca_opts a) tensor k me ord s1).
Proof.
  intros C S q a s b ph dp s1 w acts me ord tensor k HC HA HB HF HN H3 HDA HAB E HD HM s2.
  destruct (calibrated_inv C S q a s b ph dp s1 w me ord HC HA HB HF HN H3 HDA HAB E HD HM) as (o & _ & _ & _ & HI1). set (p := p_of C b o ph dp) in HI1.
  assert (HI2 : inv C S q (ca_opts a) p me s2) by (apply robust_after; [eapply inv_robust; exact HD|exact HI1]).
  rewrite !(query_value C S q (ca_opts a) p me ord _ tensor k HD) by assumption.
  rewrite !(fresh_value C S q (ca_opts a) p me ord _ tensor k H3 HD) by assumption. auto.
Qed.

(** the hypotheses hold for an object with four samples, and the common value is a number *)
Definition exph : list R := [4; 3; 2; 1]. Definition exdp : list R := [1/2; 1/2; 1/2; 1/2].
Definition exa (ns : R) : calargs := args_N_star ns None.
Lemma exa_pure ns : 1 <= ns <= 4 -> exists o, pure_first exC (exa ns) 0 (exb 0) = Ok o /\ o_ls o = 4 - ns /\ o_nc o = 4 - ns.
Proof.
  intros H. unfold pure_first, exa, args_N_star. destruct (Req_EM_T 0 0); [|lra]. cbn [ca_Omega_K0 ca_method bind String.eqb Ascii.eqb Bool.eqb].
  unfold pure_N_star. cbn [ca_N_star]. destruct (Rle_dec ns 0); [lra|]. cbn [exb b_end b_beg]. destruct (Rlt_dec _ _); [lra|].
  fold (exb 0). rewrite exb_maskedL. change (combine (maskedN (exb 0)) [0; 1; 2; 3]) with [(0, 0); (1, 1); (2, 2); (3, 3)].
  rewrite ex_interp by lra. cbn [bind pure_N_star_reh ca_rho_reh_GeV ca_w_reh ca_DeltaN_reh fst snd]. eexists. split; [reflexivity|]. cbn. split; lra.
Qed.
Lemma exa_sane ns : sane (exa ns). Proof. split; cbn; [lra|discriminate]. Qed.
Lemma exa_doc ns : documented (ca_approx (exa ns)) (ca_order (exa ns)).
Proof. right; right; left; split; [reflexivity|exists 3%Z; split; [reflexivity|lia]]. Qed.
Section Ex.
Variables (q : aeqs) (o : cout) (nc : R).
Hypothesis HNC : o_nc o = nc.
Hypothesis HR : 0 <= nc <= 3.
Let p := p_of exC (exb 0) o exph exdp.
Lemma ex_at vs : List.length vs = 4%nat -> exists v, at_nc p vs = Ok v /\ interp1d (combine [0; 1; 2; 3] vs) nc = Ok v.
Proof.
  intros LV. unfold at_nc, p, p_of. cbn [p_N p_nc]. rewrite exb_maskedN', HNC. unfold interp_fl. rewrite !reals_map. cbn [bind].
  destruct (interp_total (combine [0; 1; 2; 3] vs) nc) as [y E]; [|rewrite E; exists y; auto].
  destruct vs as [|a0 [|a1 [|a2 [|a3 [|]]]]]; try discriminate. split; [exists 0|exists 3]; (split; [cbn; auto|lra]).
Qed.
Lemma ex_flows : List.length (pflows q p) = 4%nat.
Proof. unfold pflows, p, p_of. cbn [p_K p_N p_H p_phi p_dphi]. rewrite exb_maskedN', exb_umask. reflexivity. Qed.
Lemma ex_llms S oo : accepting S -> exists H e1 e2 e3,
  interp1d (combine [0; 1; 2; 3] (p_H p)) nc = Ok H /\ interp1d (combine [0; 1; 2; 3] (map fe1 (pflows q p))) nc = Ok e1 /\ interp1d (combine [0; 1; 2; 3] (map fe2 (pflows q p))) nc = Ok e2 /\
  llms_val exC S q oo p = Ok (VSpl (o_k oo) (o_ext oo) (combine (p_lk p) (map (llms_logP_s (llms_C exC) e1 e2 e3 H) (LK exC (p_lk p)))),
                              VSpl (o_k oo) (o_ext oo) (combine (p_lk p) (map (llms_logP_t (llms_C exC) e1 e2 H) (LK exC (p_lk p))))).
Proof.
  intros AC. unfold llms_val, cross4.
  destruct (ex_at (p_H p)) as (H & -> & EH); [unfold p, p_of; cbn [p_H]; rewrite exb_umask; reflexivity|]. cbn [bind].
  destruct (ex_at (map fe1 (pflows q p))) as (e1 & -> & E1); [rewrite map_length; exact ex_flows|]. cbn [bind].
  destruct (ex_at (map fe2 (pflows q p))) as (e2 & -> & E2); [rewrite map_length; exact ex_flows|]. cbn [bind].
  destruct (ex_at (map fe3 (pflows q p))) as (e3 & -> & E3); [rewrite map_length; exact ex_flows|]. cbn [bind].
  exists H, e1, e2, e3. split; [exact EH|]. split; [exact E1|]. split; [exact E2|]. unfold buildR. rewrite !AC. reflexivity.
Qed.
End Ex.
Lemma exs_absent me : documented me (Some 3%Z) -> absent ["P_s_approx_" ++ me; "P_t_approx_" ++ me] (exs 0).
Proof. intros [->|[->|[[-> _]|[-> _]]]] k [<-|[<-|[]]]; reflexivity. Qed.
Lemma d_ARBDS : documented "ARBDS" (Some 3%Z). Proof. right; right; right; split; [reflexivity|exists 3%Z; split; [reflexivity|lia]]. Qed.
Lemma d_LLMS n : documented "LLMS" n. Proof. left. reflexivity. Qed.
Theorem C46_nonvacuous U : let q := mkaeqs AT 0 U in
  exists s1 w, calibrate_scale_factor exC exS q (exa (3/2)) (exs 0) = (s1, Ok w) /\
  absent ["P_s_approx_ARBDS"; "P_t_approx_ARBDS"] (exs 0) /\ absent ["P_s_approx_LLMS"; "P_t_approx_LLMS"] (exs 0) /\ documented "LLMS" None /\
  snd (query exC exS q default_opts false 1 "LLMS" None (after exC exS q default_opts [Query true 1 "ARBDS" (Some 2%Z); Derive "STE" None] s1)) = Ok (exp 0).
Proof.
  intros q. destruct (exa_pure (3/2) ltac:(lra)) as (o & EP & EL & NC).
  destruct (calibrate_succeeds exC exS q (exa (3/2)) (exs 0) (exb 0) o _ _ 3%nat exC_ok (exa_sane _) (exs_bg 0) eq_refl EP (exs_fields 0) ltac:(cbn; lia) exS_ok eq_refl eq_refl ltac:(lia)) as (s1 & w & E & _).
  exists s1, w. split; [exact E|]. split; [exact (exs_absent _ d_ARBDS)|]. split; [exact (exs_absent _ (d_LLMS _))|]. split; [left; reflexivity|].
  destruct (calibrated_inv exC exS q (exa (3/2)) (exs 0) (exb 0) _ _ s1 w "LLMS" None exC_ok (exa_sane _) (exs_bg 0) (exs_fields 0) eq_refl ltac:(cbn; lia) (exa_doc _) (exs_absent _ d_ARBDS) E (d_LLMS _)
    ltac:(right; right; split; [discriminate|exact (exs_absent _ (d_LLMS _))])) as (o' & EP' & _ & _ & HI). change (a_K q) with 0 in EP'. rewrite EP in EP'. injection EP' as <-.
  rewrite (query_value exC exS q default_opts (p_of exC (exb 0) o exph exdp) "LLMS" None _ false 1 (d_LLMS _)).
  - unfold value, spl_val. cbn [String.eqb Ascii.eqb Bool.eqb]. destruct (ex_llms q o (4 - 3/2) NC ltac:(lra) exS default_opts exS_ok) as (H & e1 & e2 & e3 & _ & _ & _ & ->). reflexivity.
  - apply robust_after; [exact (inv_robust exC exS q default_opts _ "LLMS" None (d_LLMS _))|exact HI].
Qed.

(** ** C46 fails as stated *)
(** splines through their knots *)
Definition interpolating (S : splines) : Prop := forall k ext l x y, NoDup (map fst l) -> In (x, y) l -> spl_eval S k ext l 0 x = y.
(** V = phi^2/2 *)
Definition Uquad : potfun := mkpotfun (fun x => x^2 / 2) (fun x => x) (fun _ => 1) (fun _ => 0).
Lemma interp_4 a b c d : interp1d [(0, a); (1, b); (2, c); (3, d)] (5/2) = Ok ((c + d) / 2) /\ interp1d [(0, a); (1, b); (2, c); (3, d)] (3/2) = Ok ((b + c) / 2).
Proof.
  unfold interp1d.
  assert (SO : sort_x [(0, a); (1, b); (2, c); (3, d)] = [(0, a); (1, b); (2, c); (3, d)]).
  { cbn [sort_x]. repeat (cbn [insert_x fst]; match goal with |- context [Rle_dec ?a ?b] => destruct (Rle_dec a b); [|exfalso; lra] end). reflexivity. }
  rewrite SO. cbn [last fst]. split.
  - destruct (Rlt_dec (5/2) 0); [lra|]. destruct (Rlt_dec 3 (5/2)); [lra|]. cbn [seg_value].
    destruct (Rle_dec (5/2) 1); [lra|]. destruct (Rle_dec (5/2) 2); [lra|]. f_equal; field.
  - destruct (Rlt_dec (3/2) 0); [lra|]. destruct (Rlt_dec 3 (3/2)); [lra|]. cbn [seg_value].
    destruct (Rle_dec (3/2) 1); [lra|]. destruct (Rle_dec (3/2) 2); [|lra]. f_equal; field.
Qed.
Lemma list4 (a b c d a' b' c' d' : R) : a = a' -> b = b' -> c = c' -> d = d' -> [a; b; c; d] = [a'; b'; c'; d'].
Proof. congruence. Qed.
Definition qquad : aeqs := mkaeqs AT 0 Uquad.
Lemma ex_pflows o : let p := p_of exC (exb 0) o exph exdp in map fe1 (pflows qquad p) = [1/8; 1/8; 1/8; 1/8] /\ map fe2 (pflows qquad p) = [-87/4; -71/4; -55/4; -39/4].
Proof.
  intros p. unfold pflows, p, p_of. cbn [p_K p_N p_H p_phi p_dphi]. rewrite exb_maskedN', exb_umask. cbn [exb b_K b_H exph exdp select flows map].
  unfold flow_of, qquad, Uquad. cbn [a_kind a_U pdV pd2V pd3V fe1 fe2].
  unfold T_get_epsilon_1H, T_get_epsilon_2H, T_get_d2H, T_get_d2phi, T_get_dH.
  replace (1^2) with 1 by ring. rewrite sqrt_1. split; apply list4; field.
Qed.
Lemma has_one_query C S q o s t k ord v : has_one s "LLMS" v -> snd (query C S q o t k "LLMS" ord s) = pv S t k v.
Proof.
  intros G. unfold query, P_approx. cbn [String.eqb Ascii.eqb Bool.eqb]. rewrite run_hasattr, key_st, has_key_get. pose proof G as [G1 G2].
  assert (D : exists w, dict_get ("P_" ++ st_of t ++ "_approx_" ++ "LLMS") s = Some w) by (destruct t; cbn [st_of String.append] in *; eauto).
  destruct D as [w Dw]. rewrite Dw. cbv iota. exact (call_one S "LLMS" k t s v G).
Qed.
Lemma query_stores C S q o p s t k ord v : ll_inv C S q o p s -> llms_val C S q o p = Ok v -> has_one (fst (query C S q o t k "LLMS" ord s)) "LLMS" v.
Proof.
  intros [B G] EV. unfold query, P_approx. cbn [String.eqb Ascii.eqb Bool.eqb]. rewrite run_hasattr, key_st, has_key_get.
  assert (CS : forall key s', fst (call_spl S key k s') = s') by (intros key s'; unfold call_spl, bindM, getS; destruct (get_S s' key); reflexivity).
  destruct G as [A|(v' & E & G)].
  - rewrite (A _ (one_key t "LLMS")). cbv iota. pose proof (LLMS_run C S q o s p (proj1 B)) as R. rewrite EV in R. destruct R as (s' & ER & G & _).
    rewrite (run_bind_step _ _ s s' tt ER), CS. exact G.
  - rewrite EV in E. injection E as <-. pose proof G as [G1 G2].
    assert (D : exists w, dict_get ("P_" ++ st_of t ++ "_approx_" ++ "LLMS") s = Some w) by (destruct t; cbn [st_of String.append] in *; eauto).
    destruct D as [w Dw]. rewrite Dw. cbv iota. change (bindM (retM tt) ?f s) with (f tt s). cbv beta. rewrite CS. exact G.
Qed.
(** Calibrate with N_star=3/2, ask for the LLMS tensor spectrum, re-calibrate with N_star=5/2 and ask again:
    for every spline implementation that passes through its knots the second answer is not the spectrum of
    the current calibration for some k. *)
Theorem C46_refuted : forall S, accepting S -> interpolating S ->
  exists s1 w1 s2 w2 k, 0 < k /\
    calibrate_scale_factor exC S qquad (exa (3/2)) (exs 0) = (s1, Ok w1) /\
    calibrate_scale_factor exC S qquad (exa (5/2)) (fst (query exC S qquad default_opts true 1 "LLMS" None s1)) = (s2, Ok w2) /\
    exists stale current, snd (query exC S qquad default_opts true k "LLMS" None s2) = Ok stale /\
      snd (fresh_query exC S qquad default_opts true k "LLMS" None s2) = Ok current /\ stale <> current.
Proof.
  intros S AC IP. destruct (exa_pure (3/2) ltac:(lra)) as (o1 & EP1 & EL1 & NC1). destruct (exa_pure (5/2) ltac:(lra)) as (o2 & EP2 & EL2 & NC2).
  destruct (calibrate_succeeds exC S qquad (exa (3/2)) (exs 0) (exb 0) o1 _ _ 3%nat exC_ok (exa_sane _) (exs_bg 0) eq_refl EP1 (exs_fields 0) ltac:(cbn; lia) AC eq_refl eq_refl ltac:(lia)) as (s1 & w1 & E1 & _).
  destruct (calibrated_inv exC S qquad (exa (3/2)) (exs 0) (exb 0) _ _ s1 w1 "LLMS" None exC_ok (exa_sane _) (exs_bg 0) (exs_fields 0) eq_refl ltac:(cbn; lia) (exa_doc _) (exs_absent _ d_ARBDS) E1 (d_LLMS _)
    ltac:(right; right; split; [discriminate|exact (exs_absent _ (d_LLMS _))])) as (o1' & EP1' & CAL1 & F1 & HI1). change (a_K qquad) with 0 in EP1'. rewrite EP1 in EP1'. injection EP1' as <-.
  change (inv exC S qquad (ca_opts (exa (3/2))) ?p "LLMS" s1) with (ll_inv exC S qquad default_opts p s1) in HI1.
  change [4; 3; 2; 1] with exph in *. change [1/2; 1/2; 1/2; 1/2] with exdp in *.
  destruct (ex_llms qquad o1 (4 - 3/2) NC1 ltac:(lra) S default_opts AC) as (H1 & e11 & e21 & e31 & X1 & X2 & X3 & V1).
  destruct (ex_llms qquad o2 (4 - 5/2) NC2 ltac:(lra) S default_opts AC) as (H2 & e12 & e22 & e32 & Y1 & Y2 & Y3 & V2).
  pose proof (query_stores exC S qquad default_opts _ s1 true 1 None _ HI1 V1) as ST.
  set (s1' := fst (query exC S qquad default_opts true 1 "LLMS" None s1)) in *.
  assert (TQ : forall kk, ~ In kk power_attrs -> dict_get kk s1' = dict_get kk s1).
  { intros kk NI. unfold s1'. destruct (query exC S qquad default_opts true 1 "LLMS" None s1) as [sx r] eqn:EQ. exact (touches_P_approx _ _ _ _ _ _ _ _ _ _ _ EQ kk NI). }
  assert (RB : remask (exb 0) = exb 0) by (unfold remask; rewrite exb_umask; reflexivity).
  assert (B1 : background s1' (exb 0)).
  { apply (background_frame s1); [rewrite <- RB; apply CAL1|]. intros kk I. apply TQ. revert kk I. apply bg_not_in. reflexivity. }
  assert (F1' : fields s1' exph exdp).
  { apply (fields_frame s1); [exact F1|]. intros kk I. apply TQ. revert kk I. apply Forall_forall. unfold power_attrs. repeat constructor; ni. }
  destruct (calibrate_succeeds exC S qquad (exa (5/2)) s1' (exb 0) o2 _ _ 3%nat exC_ok (exa_sane _) B1 eq_refl EP2 F1' ltac:(cbn; lia) AC eq_refl eq_refl ltac:(lia)) as (s2 & w2 & E2 & CAL2 & F2).
  assert (ST2 : has_one s2 "LLMS" (VSpl 3 "const" (combine (p_lk (p_of exC (exb 0) o1 exph exdp)) (map (llms_logP_s (llms_C exC) e11 e21 e31 H1) (LK exC (p_lk (p_of exC (exb 0) o1 exph exdp))))),
                                   VSpl 3 "const" (combine (p_lk (p_of exC (exb 0) o1 exph exdp)) (map (llms_logP_t (llms_C exC) e11 e21 H1) (LK exC (p_lk (p_of exC (exb 0) o1 exph exdp))))))).
  { pose proof (calibrate_run exC S qquad (exa (5/2)) s1' (exb 0) exC_ok (exa_sane _) B1 eq_refl) as R. change (a_K qquad) with 0 in R. rewrite EP2 in R.
    destruct R as (sm & wm & _ & _ & FR & EQ). rewrite EQ in E2. unfold bindM in E2.
    destruct (derive_approx_power exC S qquad (ca_approx (exa (5/2))) (ca_order (exa (5/2))) (ca_opts (exa (5/2))) sm) as [sd [u|e]] eqn:ED; [|discriminate]. injection E2 as -> _.
    assert (TD : touches ((spl_keys ++ cgs_keys) ++ derived_attrs) (derive_approx_power exC S qquad (ca_approx (exa (5/2))) (ca_order (exa (5/2))) (ca_opts (exa (5/2))))).
    { unfold derive_approx_power, exa, args_N_star. cbn [ca_approx ca_order ca_opts String.eqb Ascii.eqb Bool.eqb].
      apply touches_bind; [eapply touches_incl; [apply touches_CGS'|intros kk I; apply in_or_app; left; exact I]|]. intros []. eapply (touches_incl derived_attrs); [|intros kk I; apply in_or_app; right; exact I].
      unfold derived_attrs. touch. }
    destruct ST as [ST1 ST2]. split; (rewrite (TD _ _ _ ED) by (cbn [String.append]; unfold spl_keys, cgs_keys, derived_attrs; ni)); (rewrite FR by (cbn [String.append]; unfold calib_attrs; ni)); assumption. }
  pose proof (calibrated_powered exC s2 (exb 0) o2 exph exdp CAL2 F2) as PW2.
  pose proof (derive_run exC S qquad "LLMS" None default_opts s2 _ PW2 ltac:(cbn; lia)) as DR. unfold spl_val in DR. cbn [String.eqb Ascii.eqb Bool.eqb] in DR. rewrite V2 in DR. cbn [bind] in DR.
  destruct DR as (s3 & kn & ED & _ & _ & _ & (_ & CL & _)). destruct (CL eq_refl) as (v3 & V3 & HO). rewrite V2 in V3. injection V3 as <-.
  assert (Q1 : forall k, snd (query exC S qquad default_opts true k "LLMS" None s2) = Ok (exp (spl_eval S 3 "const" (combine (p_lk (p_of exC (exb 0) o1 exph exdp)) (map (llms_logP_t (llms_C exC) e11 e21 H1) (LK exC (p_lk (p_of exC (exb 0) o1 exph exdp))))) 0 (ln k)))).
  { intros k. rewrite (has_one_query exC S qquad default_opts s2 true k None _ ST2). reflexivity. }
  assert (Q2 : forall k, snd (fresh_query exC S qquad default_opts true k "LLMS" None s2) = Ok (exp (spl_eval S 3 "const" (combine (p_lk (p_of exC (exb 0) o2 exph exdp)) (map (llms_logP_t (llms_C exC) e12 e22 H2) (LK exC (p_lk (p_of exC (exb 0) o2 exph exdp))))) 0 (ln k)))).
  { intros k. unfold fresh_query. rewrite (run_bind_step _ _ s2 s3 tt ED). rewrite (has_one_query exC S qquad default_opts s3 true k None _ HO). reflexivity. }
  destruct (ex_pflows o1) as [P1 P2]. destruct (ex_pflows o2) as [P3 P4]. rewrite P1 in X2. rewrite P2 in X3. rewrite P3 in Y2. rewrite P4 in Y3.
  replace (4 - 3/2) with (5/2) in * by lra. replace (4 - 5/2) with (3/2) in * by lra. cbn [combine] in X2, X3, Y2, Y3.
  rewrite (proj1 (interp_4 _ _ _ _)) in X2. rewrite (proj1 (interp_4 _ _ _ _)) in X3. rewrite (proj2 (interp_4 _ _ _ _)) in Y2. rewrite (proj2 (interp_4 _ _ _ _)) in Y3. injection X2 as X2. injection X3 as X3. injection Y2 as Y2. injection Y3 as Y3.
  assert (L1 : p_lk (p_of exC (exb 0) o1 exph exdp) = [-5/2; -3/2; -1/2; 1/2]).
  { unfold p_of. cbn [p_lk]. rewrite exb_maskedL', EL1. cbn [map exC K_STAR]. rewrite ln_1. apply list4; lra. }
  assert (L2 : p_lk (p_of exC (exb 0) o2 exph exdp) = [-3/2; -1/2; 1/2; 3/2]).
  { unfold p_of. cbn [p_lk]. rewrite exb_maskedL', EL2. cbn [map exC K_STAR]. rewrite ln_1. apply list4; lra. }
  rewrite L1 in Q1. rewrite L2 in Q2. unfold LK in Q1, Q2. cbn [exC K_STAR map combine] in Q1, Q2. rewrite ln_1 in Q1, Q2.
  set (t1 := llms_logP_t (llms_C exC) e11 e21 H1) in *. set (t2 := llms_logP_t (llms_C exC) e12 e22 H2) in *.
  assert (ND : forall a b c d, a < b < c -> c < d -> NoDup [a; b; c; d]).
  { intros a b c d A B. repeat constructor; cbn [In]; intros X; repeat destruct X as [X|X]; lra. }
  assert (G : forall L, L = -3/2 \/ L = -1/2 \/ L = 1/2 -> snd (query exC S qquad default_opts true (exp L) "LLMS" None s2) = Ok (exp (t1 L)) /\ snd (fresh_query exC S qquad default_opts true (exp L) "LLMS" None s2) = Ok (exp (t2 L))).
  { intros L D. rewrite Q1, Q2, ln_exp. split; do 2 f_equal; (apply IP; [cbn [map fst]; apply ND; lra|]); cbn [In]; rewrite !Rminus_0_r; destruct D as [->|[->| ->]]; tauto. }
  exists s1, w1, s2, w2.
  assert (W : exists L, (L = -3/2 \/ L = -1/2 \/ L = 1/2) /\ t1 L <> t2 L).
  { destruct (Req_EM_T (t1 (-3/2)) (t2 (-3/2))) as [T1|T1]; [|exists (-3/2); tauto].
    destruct (Req_EM_T (t1 (-1/2)) (t2 (-1/2))) as [T2|T2]; [|exists (-1/2); tauto].
    exists (1/2). split; [tauto|]. intros T3. unfold t1, t2, llms_logP_t, llms_nt_run in T1, T2, T3. subst e11 e21 e12 e22. lra. }
  destruct W as (L & D & NE). exists (exp L). split; [apply exp_pos|]. split; [exact E1|]. split; [exact E2|].
  exists (exp (t1 L)), (exp (t2 L)). split; [apply G, D|]. split; [apply G, D|]. intros X. apply exp_inv in X. contradiction.
Qed.

(** ** C47 *)
(** any number of queries, whatever they return *)
Definition queries (l : list act) : Prop := Forall (fun a => match a with Query _ _ _ _ => True | Derive _ _ => False end) l.
Theorem C47_queries_pure : forall C S q o acts s, queries acts ->
  (forall k, In k ["A_s"; "n_s"; "n_run"; "n_runrun"; "A_t"; "n_t"; "r"] -> dict_get k (after C S q o acts s) = dict_get k s) /\
  (forall k, In k (calib_attrs ++ bg_attrs) -> dict_get k (after C S q o acts s) = dict_get k s).
Proof.
  intros C S q o acts s HQ.
  assert (F : forall k, ~ In k power_attrs -> dict_get k (after C S q o acts s) = dict_get k s).
  { revert s. induction HQ as [|a l Ha Hl IH]; intros s k NI; [reflexivity|]. change (after C S q o (a :: l) s) with (after C S q o l (perform C S q o a s)). rewrite (IH _ k NI).
    destruct a as [|t kk me ord]; [contradiction|]. cbn [perform]. destruct (query C S q o t kk me ord s) as [s' r] eqn:E. exact (touches_P_approx _ _ _ _ _ _ _ _ _ _ _ E k NI). }
  split; intros k I; apply F.
  - revert k I. apply Forall_forall. unfold power_attrs. repeat constructor; ni.
  - revert k I. apply (disjoint_in (calib_attrs ++ bg_attrs) power_attrs). reflexivity.
Qed.
(** CGS queries leave the whole object unchanged *)
Theorem C47_CGS : forall C S q o t k ord s, fst (query C S q o t k "CGS" ord s) = s.
Proof.
  intros. unfold query, P_approx. cbn [String.eqb Ascii.eqb Bool.eqb].
  assert (CS : forall key s', fst (call_spl S key k s') = s') by (intros key s'; unfold call_spl, bindM, getS; destruct (get_S s' key); reflexivity).
  repeat match goal with |- context [if ?b then _ else _] => destruct b end; apply CS.
Qed.
Theorem C47_nonvacuous : queries [Query true 1 "LLMS" None; Query false 2 "ARBDS" (Some 2%Z)]. Proof. repeat constructor. Qed.
