(** Shooting for n_s with set_ns: C48. *)
From Coq Require Import Reals List String ZArith Bool Lra Lia.
From Verif Require Import Base Model.Equations Model.Background Model.Float Model.Solution Model.Interp Model.State Model.Reheating
  Model.ApproxPower Model.Calibrate Spec.CalibSpec Proofs.BaseLemmas Proofs.FloatLemmas Proofs.DictLemmas Proofs.StateLemmas Proofs.CalibFrame
  Proofs.CalibPure Proofs.CalibPure2 Proofs.CalibPure3 Proofs.CalibRun Proofs.PowerRun Proofs.CalibResult Proofs.CalibTotal
  Properties.CalibProps Properties.CalibProps2 Properties.PowerProps.
Import ListNotations.
Open Scope R_scope.
Open Scope string_scope.

(** ** the contract of the root finder *)
(** a predicate on objects kept by every evaluation that returns *)
Definition kept {A} (I : attrs -> Prop) (m : M A) : Prop := forall s s' x, m s = (s', Ok x) -> I s -> I s'.
(** scipy's root_scalar reaches the object only through the function it is given, and the root it returns is a
    point at which it has evaluated that function (on some object it had reached) with a value of size at most [tol] *)
Definition shoots (tol : R) (find : root_oracle) : Prop := forall f lo hi s s' r, find f lo hi s = (s', Ok r) ->
  (forall I, (forall x, kept I (f x)) -> I s -> I s') /\
  exists s0 s1 v, (forall I, (forall x, kept I (f x)) -> I s -> I s0) /\ f r s0 = (s1, Ok (Fin v)) /\ Rabs v <= tol.

(** the calibration that set_ns uses *)
Definition calibrate_N_star C S q (ns : R) (rho : option R) := calibrate_scale_factor C S q (args_N_star ns rho).
Definition rho_ok (rho : option R) : Prop := match rho with Some r => 0 < r | None => True end.

Lemma ns_sane ns rho : rho_ok rho -> sane (args_N_star ns rho).
Proof. intros H. split; cbn; [lra|]. intros r ->. exact H. Qed.
Lemma ns_doc ns rho : documented (ca_approx (args_N_star ns rho)) (ca_order (args_N_star ns rho)).
Proof. right; right; left; split; [reflexivity|exists 3%Z; split; [reflexivity|lia]]. Qed.
Lemma remask_idem s b : background s b -> remask (remask b) = remask b.
Proof.
  intros HB. assert (L : List.length (b_mask b) = List.length (logaH b)).
  { unfold logaH. destruct HB as (_ & _ & _ & _ & _ & HB). rewrite logaH_length; tauto. }
  unfold remask at 1. unfold umask. cbn [remask b_mask b_K b_N b_H b_beg b_end b_Hbeg b_Hend b_Vend]. change (logaH (remask b)) with (logaH b).
  unfold umask. rewrite zipw_idem; [reflexivity|]. rewrite first_occ_length, map_length. exact L.
Qed.
(** objects with this background and these field samples *)
Definition shape (b : bg) (ph dp : list R) (s : attrs) : Prop := background s b /\ fields s ph dp.
Section NS.
Variables (C : consts) (S : splines) (q : aeqs) (b : bg) (ph dp : list R).
Hypothesis HC : consts_ok C.
Hypothesis HK : a_K q = 0.
Lemma ns_step s s' w ns rho : rho_ok rho -> shape b ph dp s -> calibrate_N_star C S q ns rho s = (s', Ok w) ->
  shape (remask b) ph dp s' /\ scal s' "N_star" ns /\ exists o, pure_N_star C (args_N_star ns rho) b = Ok o /\ exists kn,
  spl_val C S q "CGS" (Some 3%Z) default_opts (p_of C b o ph dp) = Ok (Some (VSpl 3 "const" (fst kn), VSpl 3 "const" (snd kn))) /\
  scal s' "n_s" (1 + spl_eval S 3 "const" (fst kn) 1 (ln (K_STAR C))).
Proof.
  intros HR [HB HF] E. unfold calibrate_N_star in E.
  destruct (calibrate_result C S q _ s b s' w HC (ns_sane ns rho HR) HB eq_refl E) as (o & EP & CAL & _ & FR).
  assert (F' : fields s' ph dp).
  { apply (fields_frame s); [exact HF|]. intros kk I. apply FR. revert kk I. apply Forall_forall. repeat constructor; unfold calib_attrs, power_attrs, derived_attrs; ni. }
  split; [split; [apply CAL|exact F']|].
  pose proof (calibrate_full C S q _ s b o ph dp HC (ns_sane ns rho HR) HB eq_refl EP HF ltac:(cbn; lia)) as R.
  rewrite HK in EP. destruct (pure_flat_inv _ _ _ _ EP) as [[_ PN]|[X _]]; [|discriminate].
  split. { destruct (pure_N_star_inv _ _ _ _ PN) as (ns' & EN & _ & ON & _). injection EN as <-. destruct CAL as (((_ & _ & _ & NS & _) & _) & _). rewrite ON in NS. exact NS. }
  exists o. split; [exact PN|].
  cbn [args_N_star ca_approx ca_order ca_opts] in R. pose proof (documented_spl C S q "CGS" (Some 3%Z) default_opts (p_of C b o ph dp) (ns_doc ns rho)) as ND.
  destruct (spl_val C S q "CGS" (Some 3%Z) default_opts (p_of C b o ph dp)) as [[v|]|e]; [|contradiction|rewrite E in R; discriminate].
  destruct R as (s2 & w2 & kn & E2 & _ & _ & _ & Ev & HPa & _). rewrite E in E2. injection E2 as <- _. exists kn. split; [rewrite Ev; reflexivity|]. apply HPa.
Qed.
Lemma ns_unique s1 s1' w1 s2 s2' w2 ns rho1 rho2 : rho_ok rho1 -> rho_ok rho2 -> shape b ph dp s1 -> shape b ph dp s2 ->
  calibrate_N_star C S q ns rho1 s1 = (s1', Ok w1) -> calibrate_N_star C S q ns rho2 s2 = (s2', Ok w2) -> exists x, scal s1' "n_s" x /\ scal s2' "n_s" x.
Proof.
  intros R1 R2 S1 S2 E1 E2. destruct (ns_step _ _ _ _ _ R1 S1 E1) as (_ & _ & o1 & P1 & kn1 & V1 & N1). destruct (ns_step _ _ _ _ _ R2 S2 E2) as (_ & _ & o2 & P2 & kn2 & V2 & N2).
  assert (EO : p_of C b o1 ph dp = p_of C b o2 ph dp).
  { apply pure_N_star_inv in P1, P2. destruct P1 as (n1 & En1 & _ & _ & OC1 & OI1 & _). destruct P2 as (n2 & En2 & _ & _ & OC2 & OI2 & _).
    injection En1 as <-. injection En2 as <-. rewrite OI1 in OI2. injection OI2 as EL. unfold p_of. rewrite OC1, OC2, EL. reflexivity. }
  rewrite EO, V2 in V1. injection V1 as K1 K2. rewrite <- K1 in N1. eauto.
Qed.
End NS.
Lemma scal_getF s k x : scal s k x -> getF k s = (s, Ok (Fin x)).
Proof. intros H. unfold getF, get_F, getattr. rewrite H. reflexivity. Qed.
Lemma eval_run C S q t ns s s' w x : calibrate_N_star C S q ns None s = (s', Ok w) -> scal s' "n_s" x -> Nstar2ns_minus_ns C S q t ns s = (s', Ok (Fin (x - t))).
Proof.
  intros E N. unfold Nstar2ns_minus_ns. rewrite (run_bind_step _ _ s s' w E). rewrite (run_bind_step _ _ s' s' (Fin x) (scal_getF _ _ _ N)). reflexivity.
Qed.

(** ** C48 *)
(** Curved universe: PrimpyError and the object is not touched. *)
Theorem C48_curved : forall C S q find n_s lo hi rho s K, scal s "K" K -> K <> 0 ->
  set_ns C S q find n_s lo hi rho s = (s, Raise PrimpyError).
Proof.
  intros C S q find n_s lo hi rho s K HK NZ. unfold set_ns. rewrite (run_bind_step _ _ s s (Fin K) (scal_getF _ _ _ HK)). cbn [feq]. destruct (Req_EM_T K 0); [contradiction|]. reflexivity.
Qed.
(** Flat universe, the spectral indices at the two ends of the bracket being [x] and [y]: if the target is
    below both or above both, PrimpyError whatever the root finder would do. Otherwise the bracket given to the
    root finder has a sign change of n_s(N_star) - target, and a root that it returns is calibrated with. *)
Theorem C48_bracket : forall C S q find n_s lo hi rho s s1 w1 x s2 w2 y,
  scal s "K" 0 ->
  calibrate_N_star C S q lo None s = (s1, Ok w1) -> scal s1 "n_s" x ->
  calibrate_N_star C S q hi None s1 = (s2, Ok w2) -> scal s2 "n_s" y ->
  (n_s < x /\ n_s < y \/ x < n_s /\ y < n_s -> snd (set_ns C S q find n_s lo hi rho s) = Raise PrimpyError) /\
  (~ (n_s < x /\ n_s < y \/ x < n_s /\ y < n_s) -> (x - n_s) * (y - n_s) <= 0 /\
     set_ns C S q find n_s lo hi rho s = (root <<- find (Nstar2ns_minus_ns C S q n_s) lo hi; calibrate_N_star C S q root rho) s2).
Proof.
  intros C S q find n_s lo hi rho s s1 w1 x s2 w2 y HK E1 X E2 Y.
  assert (R : set_ns C S q find n_s lo hi rho s = (if (flt (Fin n_s) (Fin (x - n_s + n_s)) && flt (Fin n_s) (Fin (y - n_s + n_s)))%bool then raiseM PrimpyError
    else if (flt (Fin (x - n_s + n_s)) (Fin n_s) && flt (Fin (y - n_s + n_s)) (Fin n_s))%bool then raiseM PrimpyError
    else root <<- find (Nstar2ns_minus_ns C S q n_s) lo hi; calibrate_N_star C S q root rho) s2).
  { unfold set_ns. rewrite (run_bind_step _ _ s s (Fin 0) (scal_getF _ _ _ HK)). cbn [feq]. destruct (Req_EM_T 0 0); [|lra]. cbn [negb].
    rewrite (run_bind_step _ _ s s1 _ (eval_run C S q n_s lo s s1 w1 x E1 X)). cbv zeta. rewrite (run_bind_step _ _ s1 s2 _ (eval_run C S q n_s hi s1 s2 w2 y E2 Y)). reflexivity. }
  rewrite R. clear R. replace (x - n_s + n_s) with x by ring. replace (y - n_s + n_s) with y by ring. cbn [flt].
  split.
  - intros D. destruct (Rlt_dec n_s x), (Rlt_dec n_s y); cbn [andb]; try reflexivity; destruct (Rlt_dec x n_s), (Rlt_dec y n_s); cbn [andb]; try reflexivity; exfalso; tauto.
  - intros D. split.
    + destruct (Rle_lt_dec ((x - n_s) * (y - n_s)) 0) as [L|L]; [exact L|]. exfalso. apply D.
      destruct (Rtotal_order x n_s) as [A|[A|A]]; [right|exfalso; subst; lra|left]; (split; [exact A|]); nra.
    + destruct (Rlt_dec n_s x), (Rlt_dec n_s y); cbn [andb]; try (exfalso; tauto); destruct (Rlt_dec x n_s), (Rlt_dec y n_s); cbn [andb]; try reflexivity; exfalso; tauto.
Qed.
(** On success the background is calibrated with the root [N_star] (and the reheating density asked for), and its
    n_s is within [tol] of the target, for every root finder that returns points where the function it was given is
    within [tol] of zero. *)
Theorem C48_success : forall C S q find tol n_s lo hi rho s b ph dp s' w,
  consts_ok C -> a_K q = 0 -> background s b -> fields s ph dp -> rho_ok rho -> shoots tol find ->
  set_ns C S q find n_s lo hi rho s = (s', Ok w) ->
  exists root s_before x, calibrate_N_star C S q root rho s_before = (s', Ok w) /\ background s_before (remask b) /\
    scal s' "N_star" root /\ scal s' "n_s" x /\ Rabs (x - n_s) <= tol.
Proof.
  intros C S q find tol n_s lo hi rho s b ph dp s' w HC HK HB HF HR HFI E.
  assert (SH : shape b ph dp s) by (split; assumption). pose proof (remask_idem s b HB) as RI.
  assert (KEEP : forall t x, kept (shape (remask b) ph dp) (Nstar2ns_minus_ns C S q t x)).
  { intros t x s0 s0' v Ev H0. unfold Nstar2ns_minus_ns, bindM in Ev. destruct (calibrate_scale_factor C S q (args_N_star x None) s0) as [s3 [w3|e]] eqn:E3; [|discriminate].
    destruct (ns_step C S q (remask b) ph dp HC HK s0 s3 w3 x None I H0 E3) as [H3 _]. rewrite RI in H3. unfold getF, retM in Ev. destruct (get_F s3 "n_s"); [|discriminate]. injection Ev as <- _. exact H3. }
  unfold set_ns in E. unfold bindM at 1 in E. destruct (getF "K" s) as [sk [K|e]] eqn:EK; [|discriminate].
  assert (sk = s) by (unfold getF in EK; injection EK as <- _; reflexivity). subst sk.
  destruct (negb (feq K (Fin 0))); [discriminate|].
  unfold bindM at 1 in E. destruct (Nstar2ns_minus_ns C S q n_s lo s) as [s1 [u|e]] eqn:E1; [|discriminate].
  assert (SH1 : shape (remask b) ph dp s1).
  { unfold Nstar2ns_minus_ns, bindM in E1. destruct (calibrate_scale_factor C S q (args_N_star lo None) s) as [s3 [w3|e]] eqn:E3; [|discriminate].
    destruct (ns_step C S q b ph dp HC HK s s3 w3 lo None I SH E3) as [H3 _]. unfold getF, retM in E1. destruct (get_F s3 "n_s"); [|discriminate]. injection E1 as <- _. exact H3. }
  unfold bindM at 1 in E. cbv zeta in E. destruct (Nstar2ns_minus_ns C S q n_s hi s1) as [s2 [v|e]] eqn:E2; [|discriminate].
  pose proof (KEEP n_s hi s1 s2 v E2 SH1) as SH2.
  destruct (_ && _)%bool in E; [discriminate|]. destruct (_ && _)%bool in E; [discriminate|].
  unfold bindM at 1 in E. destruct (find (Nstar2ns_minus_ns C S q n_s) lo hi s2) as [s3 [root|e]] eqn:E3; [|discriminate].
  destruct (HFI _ _ _ _ _ _ E3) as (K3 & s0 & s4 & z & K0 & EZ & TZ).
  specialize (K3 _ (KEEP n_s) SH2). specialize (K0 _ (KEEP n_s) SH2).
  destruct (ns_step C S q (remask b) ph dp HC HK s3 s' w root rho HR K3 E) as (_ & NST & _).
  assert (E4 : exists w4, calibrate_N_star C S q root None s0 = (s4, Ok w4) /\ exists x, get_F s4 "n_s" = Ok x /\ fsub x (Fin n_s) = Fin z).
  { unfold Nstar2ns_minus_ns, bindM in EZ. unfold calibrate_N_star. destruct (calibrate_scale_factor C S q (args_N_star root None) s0) as [s5 [w5|e]]; [|discriminate].
    unfold getF, retM in EZ. destruct (get_F s5 "n_s") as [x|e] eqn:EX; [|discriminate]. injection EZ as <- EZ. exists w5. split; [reflexivity|]. exists x. split; [exact EX|exact EZ]. }
  destruct E4 as (w4 & E4 & fx & EX & EZ').
  destruct (ns_unique C S q (remask b) ph dp HC HK s0 s4 w4 s3 s' w root None rho I HR K0 K3 E4 E) as (x & N1 & N2).
  exists root, s3, x. split; [exact E|]. split; [apply K3|]. split; [exact NST|]. split; [exact N2|].
  unfold get_F, getattr in EX. rewrite N1 in EX. injection EX as <-. cbn [fsub] in EZ'. injection EZ' as <-. exact TZ.
Qed.

(** a root finder (bisection that stops at the middle if the value there is zero) meets the contract, and set_ns succeeds with it *)
Definition mid_find : root_oracle := fun f lo hi => v <<- f ((lo + hi) / 2); match v with Fin z => if Req_EM_T z 0 then retM ((lo + hi) / 2) else raiseM ValueError | _ => raiseM ValueError end.
Lemma mid_shoots : shoots 0 mid_find.
Proof.
  intros f lo hi s s' r E. unfold mid_find, bindM in E. destruct (f ((lo + hi) / 2) s) as [s1 [v|e]] eqn:EF; [|discriminate].
  destruct v as [z| | |]; try discriminate. destruct (Req_EM_T z 0) as [->|]; [|discriminate]. injection E as <- <-. split.
  - intros I K HI. exact (K _ _ _ _ EF HI).
  - exists s, s1, 0. split; [auto|]. split; [exact EF|]. rewrite Rabs_R0. lra.
Qed.
Theorem C48_nonvacuous U : let q := mkaeqs AT 0 U in exists s' w,
  set_ns exC exS q mid_find 1 (3/2) (5/2) None (exs 0) = (s', Ok w) /\ background (exs 0) (exb 0) /\ scal s' "N_star" 2 /\ scal s' "n_s" 1 /\
  exists s1 w1 s2 w2, calibrate_N_star exC exS q (3/2) None (exs 0) = (s1, Ok w1) /\ calibrate_N_star exC exS q (5/2) None s1 = (s2, Ok w2).
Proof.
  intros q. assert (RB : remask (exb 0) = exb 0) by (unfold remask; rewrite exb_umask; reflexivity).
  assert (ST : forall ns s, 1 <= ns <= 4 -> shape (exb 0) [4; 3; 2; 1] [1/2; 1/2; 1/2; 1/2] s -> exists s' w, calibrate_N_star exC exS q ns None s = (s', Ok w) /\ shape (exb 0) [4; 3; 2; 1] [1/2; 1/2; 1/2; 1/2] s' /\ scal s' "n_s" 1 /\ scal s' "N_star" ns).
  { intros ns s Hn [HB HF]. destruct (exa_pure ns Hn) as (o & EP & _).
    destruct (calibrate_succeeds exC exS q (exa ns) s (exb 0) o _ _ 3%nat exC_ok (exa_sane _) HB eq_refl EP HF ltac:(cbn; lia) exS_ok eq_refl eq_refl ltac:(lia)) as (s' & w & E & _).
    exists s', w. split; [exact E|]. destruct (ns_step exC exS q (exb 0) _ _ exC_ok eq_refl s s' w ns None I (conj HB HF) E) as (S' & NS & o' & _ & kn & _ & N). rewrite RB in S'. split; [exact S'|].
    split; [|exact NS]. change (spl_eval exS 3 "const" (fst kn) 1 (ln (K_STAR exC))) with 0 in N. rewrite Rplus_0_r in N. exact N. }
  assert (S0 : shape (exb 0) [4; 3; 2; 1] [1/2; 1/2; 1/2; 1/2] (exs 0)) by (split; [apply exs_bg|apply exs_fields]).
  destruct (ST (3/2) (exs 0) ltac:(lra) S0) as (s1 & w1 & E1 & S1 & N1 & _). destruct (ST (5/2) s1 ltac:(lra) S1) as (s2 & w2 & E2 & S2 & N2 & _).
  destruct (ST 2 s2 ltac:(lra) S2) as (s3 & w3 & E3 & S3 & N3 & _). destruct (ST 2 s3 ltac:(lra) S3) as (s4 & w4 & E4 & S4 & N4 & NS4).
  exists s4, w4. split; [|split; [apply exs_bg|split; [exact NS4|split; [exact N4|exists s1, w1, s2, w2; auto]]]].
  destruct (C48_bracket exC exS q mid_find 1 (3/2) (5/2) None (exs 0) s1 w1 1 s2 w2 1 (proj1 (exs_bg 0)) E1 N1 E2 N2) as [_ H]. destruct H as [_ ->]; [lra|].
  pose proof (eval_run exC exS q 1 2 s2 s3 w3 1 E3 N3) as EV.
  assert (EM : mid_find (Nstar2ns_minus_ns exC exS q 1) (3/2) (5/2) s2 = (s3, Ok 2)).
  { unfold mid_find. replace ((3/2 + 5/2) / 2) with 2 by lra. rewrite (run_bind_step _ _ s2 s3 _ EV). destruct (Req_EM_T (1 - 1) 0); [reflexivity|lra]. }
  rewrite (run_bind_step _ _ s2 s3 2 EM). exact E4.
Qed.
