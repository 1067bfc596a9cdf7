(** C98: the slow-roll wrapper's output stage. *)
From Coq Require Import Reals List String ZArith Bool Lra Lia.
From Verif Require Import Base Model.Equations Model.Float Model.Solution Model.Interp Model.State
  Model.ApproxPower Model.Calibrate Model.Reheating Model.Cobaya Model.SlowRollWrapper
  Spec.CalibSpec Proofs.DictLemmas Proofs.StateLemmas Proofs.CalibFrame Proofs.CalibTotal
  Proofs.CalibPure Proofs.CalibPure2 Proofs.CalibPure3 Proofs.CalibRun Properties.CalibProps2 Properties.CalibProps3 Properties.PowerProps Properties.NsProps.
Import ListNotations.
Open Scope R_scope.
Open Scope string_scope.

(** attribute k exists and is a number (NaN and infinities included) *)
Definition number (k : string) (s : attrs) : Prop := exists x, dict_get k s = Some (VF x).

(** [keeps l m]: whatever m does, success or not, numbers named in l stay numbers;
    [ensures k m]: after m succeeds, attribute k is a number *)
Definition keeps {A} (l : list string) (m : M A) : Prop :=
  forall s s' r, m s = (s', r) -> forall k, In k l -> number k s -> number k s'.
Definition ensures {A} (k : string) (m : M A) : Prop := forall s s' r, m s = (s', Ok r) -> number k s'.

Lemma keeps_id {A} l (f : attrs -> res A) : keeps l (fun s => (s, f s)).
Proof. intros s s' r [= <- _] k _ N. exact N. Qed.
Lemma keeps_setF l k v : keeps l (setF k v).
Proof. intros s s' r [= <- _] j _ N. unfold number, setattr. rewrite get_set. destruct (String.eqb j k); [eauto|exact N]. Qed.
Lemma keeps_setM l k v : existsb (String.eqb k) l = false -> keeps l (setM k v).
Proof.
  intros NI s s' r [= <- _] j I N. unfold number, setattr. rewrite get_set. destruct (String.eqb j k) eqn:E; [|exact N].
  exfalso. apply String.eqb_eq in E. subst j. enough (existsb (String.eqb k) l = true) by congruence.
  apply existsb_exists. exists k. split; [exact I|apply String.eqb_refl].
Qed.
Lemma keeps_bind {A B} l (m : M A) (f : A -> M B) : keeps l m -> (forall a, keeps l (f a)) -> keeps l (bindM m f).
Proof.
  intros Hm Hf s s' r E k I N. unfold bindM in E. destruct (m s) as [s1 [a|e]] eqn:E1.
  - exact (Hf a _ _ _ E k I (Hm _ _ _ E1 k I N)).
  - injection E as <- _. exact (Hm _ _ _ E1 k I N).
Qed.
Lemma ensures_setF k v : ensures k (setF k v).
Proof. intros s s' r [= <- _]. exists v. unfold setattr. apply get_set_eq. Qed.
Lemma ensures_raise {A} k e : ensures k (raiseM (A := A) e).
Proof. intros s s' r [=]. Qed.
Lemma ensures_l {A B} l k (m : M A) (f : A -> M B) : In k l -> ensures k m -> (forall a, keeps l (f a)) -> ensures k (bindM m f).
Proof.
  intros I Hm Hf s s' r E. unfold bindM in E. destruct (m s) as [s1 [a|e]] eqn:E1; [|discriminate].
  exact (Hf a _ _ _ E k I (Hm _ _ _ E1)).
Qed.
Lemma ensures_r {A B} k (m : M A) (f : A -> M B) : (forall a, ensures k (f a)) -> ensures k (bindM m f).
Proof. intros Hf s s' r E. unfold bindM in E. destruct (m s) as [s1 [a|e]] eqn:E1; [|discriminate]. exact (Hf a _ _ _ E). Qed.

Ltac kbind := lazymatch goal with |- keeps _ (bindM _ _) => apply keeps_bind; [|intros ?] end.
Ltac keep1 :=
  first [ kbind | apply keeps_setF
        | lazymatch goal with
          | |- keeps _ (setM ?k ?v) => apply (keeps_setM _ k v); cbn [String.append]; reflexivity
          | |- keeps _ (match ?x with _ => _ end) => destruct x
          | |- keeps _ (let x := ?y in _) => cbv zeta
          | |- keeps ?l (retM ?a) => apply (keeps_id l (fun _ => Ok a))
          | |- keeps ?l (raiseM ?a) => apply (keeps_id l (fun _ => Raise a))
          | |- keeps ?l (liftM ?a) => apply (keeps_id l (fun _ => a))
          | |- keeps ?l (getF ?k) => apply (keeps_id l (fun s => get_F s k))
          | |- keeps ?l (getA ?k) => apply (keeps_id l (fun s => get_A s k))
          | |- keeps ?l (getB ?k) => apply (keeps_id l (fun s => get_B s k))
          | |- keeps ?l (getS ?k) => apply (keeps_id l (fun s => get_S s k))
          | |- keeps ?l (hasattr ?k) => apply (keeps_id l (fun s => Ok (has_key k s)))
          end ].
Ltac keep := repeat (keep1 || assumption).

Section Derive.
Variables (C : consts) (S : splines) (q : aeqs).
Notation keeps := (keeps provided).
Lemma keeps_setP Ps Pt : keeps (setP Ps Pt). Proof. unfold setP. keep. Qed.
Lemma keeps_setspl v : keeps (setspl v). Proof. unfold setspl. keep. Qed.
Lemma keeps_build2 o k t : keeps (build2 S o k t). Proof. unfold build2, build. keep. Qed.
Lemma keeps_sample_flows : keeps (sample_flows q). Proof. unfold sample_flows, get_samples, masked, getR. keep. Qed.
Lemma keeps_get_logk : keeps get_logk. Proof. unfold get_logk. keep. Qed.
Lemma keeps_at_cross a b : keeps (at_cross a b). Proof. unfold at_cross, getR. keep. Qed.
Lemma keeps_cgs_order o ord n x Hs fs : (forall v, keeps (setclosure x v)) -> keeps (cgs_order C S o ord n x Hs fs).
Proof. intros X. unfold cgs_order. cbv zeta. repeat kbind; [destruct (order_is _ _)|..]; first [apply keeps_setP|apply keeps_get_logk|apply keeps_build2|apply X|keep]. Qed.
Lemma keeps_arbds_order o ord n x a b c d lk : (forall v, keeps (setclosure x v)) -> keeps (arbds_order C S o ord n x a b c d lk).
Proof. intros X. unfold arbds_order. cbv zeta. repeat kbind; [|destruct (order_is _ _)|..]; first [apply keeps_setP|apply keeps_build2|apply X|keep]. Qed.
Lemma keeps_CGS o ord : keeps (derive_CGS C S q o ord).
Proof.
  unfold derive_CGS. repeat kbind; try apply keeps_sample_flows.
  1-4: apply keeps_cgs_order; unfold setclosure; intros v; keep.
  keep; apply keeps_setspl.
Qed.
Lemma keeps_LLMS o : keeps (derive_LLMS C S q o).
Proof.
  unfold derive_LLMS. cbv zeta. repeat kbind;
    first [apply keeps_sample_flows|apply keeps_at_cross|apply keeps_get_logk|apply keeps_build2|apply keeps_setP|apply keeps_setspl|unfold setclosure; keep].
Qed.
Lemma keeps_STE o : keeps (derive_STE C S q o).
Proof.
  unfold derive_STE. cbv zeta. repeat kbind;
    first [apply keeps_sample_flows|apply keeps_at_cross|apply keeps_get_logk|apply keeps_build2|apply keeps_setP|apply keeps_setspl|unfold setclosure; keep].
Qed.
Lemma keeps_ARBDS o ord : keeps (derive_ARBDS C S q o ord).
Proof.
  unfold derive_ARBDS. cbv zeta. repeat kbind;
    try first [apply keeps_sample_flows|apply keeps_at_cross|apply keeps_get_logk].
  1-3: apply keeps_arbds_order; unfold setclosure; intros v; keep.
  keep; apply keeps_setspl.
Qed.
Lemma keeps_derive me ord o : keeps (derive_approx_power C S q me ord o).
Proof.
  unfold derive_approx_power. apply keeps_bind.
  - repeat match goal with |- keeps (if ?b then _ else _) => destruct b end;
      [apply keeps_CGS|apply keeps_LLMS|apply keeps_STE|apply keeps_ARBDS|keep].
  - intros []. keep.
Qed.
Lemma keeps_set_logk l : keeps (set_logk l). Proof. unfold set_logk. keep. Qed.
Lemma keeps_flat a : ca_background a = None -> keeps (calibrate_flat C a).
Proof.
  intros NB. unfold calibrate_flat. rewrite NB. unfold flat_finish, set_logk, flat_N_star, flat_N_star_reheating, flat_reheating, flat_reheating_cases, set_nans.
  cbn [fold_right]. cbv zeta. keep.
Qed.
Lemma keeps_curved a : keeps (calibrate_curved C a).
Proof.
  unfold calibrate_curved. unfold curved_finish, set_logk, curved_Omega_K0, curved_reheating, curved_reheating_cases, set_nans.
  cbn [fold_right]. cbv zeta. keep.
Qed.
Lemma keeps_common a : keeps (calibrate_common C a). Proof. unfold calibrate_common. keep. Qed.
Lemma keeps_calibrate a : ca_background a = None -> keeps (calibrate_scale_factor C S q a).
Proof.
  intros NB. unfold calibrate_scale_factor. rewrite NB. repeat kbind.
  - destruct (Req_EM_T (a_K q) 0); [apply keeps_flat, NB|apply keeps_curved].
  - apply keeps_common.
  - apply keeps_derive.
  - keep.
Qed.
End Derive.

Ltac isin := unfold provided; cbn [In]; repeat (first [left; reflexivity|right]).
Ltac ens n :=
  lazymatch n with O => fail | S ?p =>
  lazymatch goal with
  | |- ensures ?k (setF ?k _) => apply ensures_setF
  | |- ensures _ (raiseM _) => apply ensures_raise
  | |- ensures _ (bindM _ _) =>
      first [ solve [apply ensures_r; intros ?; ens p]
            | solve [apply (ensures_l provided); [isin| ens p |intros ?; keep]] ]
  | |- ensures _ (match ?x with _ => _ end) => destruct x; ens p
  | |- ensures _ (let x := ?y in _) => cbv zeta; ens p
  end end.
Ltac ensP := lazymatch goal with |- ensures _ ?m => ens 60%nat end.

Section Ensure.
Variables (C : consts) (S : splines) (q : aeqs).
Lemma ens_common k a : In k ["N_end"; "N_reh"] -> ensures k (calibrate_common C a).
Proof. intros [<-|[<-|[] ] ]; unfold calibrate_common; ensP. Qed.
Lemma ens_derive k me ord o : In k ["A_s"; "n_s"; "n_run"; "n_runrun"; "A_t"; "n_t"; "r"] -> ensures k (derive_approx_power C S q me ord o).
Proof.
  intros I. unfold derive_approx_power. apply ensures_r. intros []. cbv zeta. cbn [In] in I.
  repeat (destruct I as [<-|I]; [ensP|]). destruct I.
Qed.
Lemma ens_flat k a : ca_background a = None -> In k ["N_star"; "w_reh"; "DeltaN_reh"; "rho_reh_GeV"; "DeltaN_minus1"] -> ensures k (calibrate_flat C a).
Proof.
  intros NB I. unfold calibrate_flat. rewrite NB. unfold flat_finish, set_logk, flat_N_star, flat_N_star_reheating, flat_reheating, flat_reheating_cases, set_nans.
  cbn [fold_right]. cbv zeta. cbn [In] in I.
  repeat (destruct I as [<-|I]; [ensP|]). destruct I.
Qed.
Lemma ens_curved k a : In k ["N_star"; "w_reh"; "DeltaN_reh"; "rho_reh_GeV"; "DeltaN_minus1"] -> ensures k (calibrate_curved C a).
Proof.
  intros I. unfold calibrate_curved. unfold curved_finish, set_logk, curved_Omega_K0, curved_reheating, curved_reheating_cases, set_nans.
  cbn [fold_right]. cbv zeta. cbn [In] in I.
  repeat (destruct I as [<-|I]; [ensP|]). destruct I.
Qed.
End Ensure.

Lemma bind_inv {A B} (m : M A) (f : A -> M B) s s' b : bindM m f s = (s', Ok b) -> exists s1 a, m s = (s1, Ok a) /\ f a s1 = (s', Ok b).
Proof. unfold bindM. destruct (m s) as [s1 [a|e]]; [eauto|discriminate]. Qed.
Lemma lift_inv {A} (r : res A) s s' a : liftM r s = (s', Ok a) -> s' = s /\ r = Ok a.
Proof. intros [= <- ->]. auto. Qed.
(** the third-order interpolants are also the default ones *)
Definition spectra (s : attrs) (n : nat) (e : string) (a b : list (R * R)) : Prop :=
  dict_get "P_s_approx_CGS3" s = Some (VSpl n e a) /\ dict_get "P_t_approx_CGS3" s = Some (VSpl n e b) /\
  dict_get "logk2logP_s" s = Some (VSpl n e a) /\ dict_get "logk2logP_t" s = Some (VSpl n e b).
Lemma cgs_spectra C S q o s s' : derive_CGS C S q o (Some 3%Z) s = (s', Ok tt) -> exists a b, spectra s' (o_k o) (o_ext o) a b.
Proof.
  intros E. unfold derive_CGS in E.
  apply bind_inv in E as (s1 & sf & _ & E). cbv zeta in E.
  apply bind_inv in E as (s2 & v0 & _ & E). apply bind_inv in E as (s3 & v1 & _ & E). apply bind_inv in E as (s4 & v2 & _ & E).
  apply bind_inv in E as (s5 & v3 & E3 & E). cbn [order_is Z.eqb Pos.eqb] in E.
  unfold cgs_order in E3. cbv zeta in E3. apply bind_inv in E3 as (s6 & [] & _ & E3). apply bind_inv in E3 as (s7 & lk & _ & E3).
  apply bind_inv in E3 as (s8 & v & EB & E3). apply bind_inv in E3 as (s9 & [] & EC & E3). injection E3 as <- <-.
  unfold build2, build in EB. apply bind_inv in EB as (s10 & x & EX & EB). apply bind_inv in EB as (s11 & y & EY & EB). injection EB as <- <-.
  destruct (spl_accept S (o_k o) _) in EX; [|discriminate]. destruct (spl_accept S (o_k o) _) in EY; [|discriminate].
  injection EX as <- <-. injection EY as <- <-. injection EC as <-. injection E as <-. do 2 eexists. unfold spectra.
  unfold setattr. repeat split; rewrite ?get_set_eq, ?get_set; cbn [String.append String.eqb Ascii.eqb Bool.eqb]; try reflexivity.
Qed.
Definition pivot_values (C : consts) (S : splines) (s : attrs) : Prop := exists n e a b, spectra s n e a b /\
  dict_get "A_s" s = Some (VF (Fin (exp (spl_eval S n e a 0 (ln (K_STAR C)))))) /\
  dict_get "A_t" s = Some (VF (Fin (exp (spl_eval S n e b 0 (ln (K_STAR C)))))) /\
  dict_get "r" s = Some (VF (Fin (exp (spl_eval S n e b 0 (ln (K_STAR C))) / exp (spl_eval S n e a 0 (ln (K_STAR C)))))).
Lemma derive_pivot C S q o s s' u : derive_approx_power C S q "CGS" (Some 3%Z) o s = (s', Ok u) -> pivot_values C S s'.
Proof.
  intros E. unfold derive_approx_power in E. change (String.eqb "CGS" "CGS") with true in E. cbv iota in E.
  apply bind_inv in E as (s1 & [] & E1 & E). apply cgs_spectra in E1 as (a & b & SP). destruct SP as (S1 & S2 & S3 & S4).
  rewrite (run_bind_getS _ _ _ _ _ _ S3) in E. rewrite (run_bind_getS _ _ _ _ _ _ S4) in E. cbv zeta in E.
  unfold deriv_at in E. cbn [fst snd Nat.leb] in E.
  apply bind_inv in E as (s2 & s0 & X & E). injection X as <- <-. apply bind_inv in E as (s3 & [] & X & E). injection X as <-.
  apply bind_inv in E as (s4 & y1 & X & E). apply lift_inv in X as [-> _]. apply bind_inv in E as (s5 & [] & X & E). injection X as <-.
  apply bind_inv in E as (s4 & y2 & X & E). apply lift_inv in X as [-> _]. apply bind_inv in E as (s5 & [] & X & E). injection X as <-.
  apply bind_inv in E as (s4 & y3 & X & E). apply lift_inv in X as [-> _]. apply bind_inv in E as (s5 & [] & X & E). injection X as <-.
  apply bind_inv in E as (s4 & z0 & X & E). injection X as <- <-. apply bind_inv in E as (s5 & [] & X & E). injection X as <-.
  apply bind_inv in E as (s4 & z1 & X & E). apply lift_inv in X as [-> _]. apply bind_inv in E as (s5 & [] & X & E). injection X as <-.
  injection E as <- <-. unfold setattr.
  exists (o_k o), (o_ext o), a, b. unfold spectra.
  repeat split; rewrite ?get_set; cbn [String.eqb Ascii.eqb Bool.eqb]; first [reflexivity|assumption].
Qed.

Definition calibrated_keys : list string :=
  ["N_star"; "N_end"; "N_reh"; "w_reh"; "DeltaN_reh"; "rho_reh_GeV"; "DeltaN_minus1";
   "A_s"; "n_s"; "n_run"; "n_runrun"; "A_t"; "n_t"; "r"].
(** every successful calibration, flat or curved, by any method and with any approximation, without an earlier
    background: all the derived parameters of the calibration are numbers, and no number among the wrapper's outputs
    is lost or overwritten by something else, also when it fails *)
Theorem C98_calibration : forall C S q a s s' r, ca_background a = None -> calibrate_scale_factor C S q a s = (s', r) ->
  (forall k, In k provided -> number k s -> number k s') /\
  (forall w, r = Ok w -> forall k, In k calibrated_keys -> number k s').
Proof.
  intros C S q a s s' r NB E. split.
  - intros k I. exact (keeps_calibrate C S q a NB s s' r E k I).
  - intros w -> k I. unfold calibrate_scale_factor in E. rewrite NB in E.
    apply bind_inv in E as (s1 & [] & E1 & E). apply bind_inv in E as (s2 & w' & E2 & E). apply bind_inv in E as (s3 & [] & E3 & E).
    injection E as <- <-.
    assert (P : In k provided).
    { unfold calibrated_keys in I. cbn [In] in I. repeat (destruct I as [<-|I]; [isin|]). destruct I. }
    assert (X : In k ["N_star"; "w_reh"; "DeltaN_reh"; "rho_reh_GeV"; "DeltaN_minus1"] \/ In k ["N_end"; "N_reh"] \/
                In k ["A_s"; "n_s"; "n_run"; "n_runrun"; "A_t"; "n_t"; "r"]).
    { unfold calibrated_keys in I. cbn [In] in I |- *. tauto. }
    destruct X as [X|[X|X] ].
    + apply (keeps_derive C S q _ _ _ _ _ _ E3 k P). apply (keeps_common C a _ _ _ E2 k P).
      destruct (Req_EM_T (a_K q) 0); [exact (ens_flat C k a NB X _ _ _ E1)|exact (ens_curved C k a X _ _ _ E1)].
    + apply (keeps_derive C S q _ _ _ _ _ _ E3 k P). exact (ens_common C k a X _ _ _ E2).
    + exact (ens_derive C S q k _ _ _ X _ _ _ E3).
Qed.

(** a root finder that reaches the object only through the function it is given *)
Definition acts_through (find : root_oracle) : Prop := forall f lo hi s s' r, find f lo hi s = (s', Ok r) ->
  forall I : attrs -> Prop, (forall x u u' v, f x u = (u', v) -> I u -> I u') -> I s -> I s'.

Lemma run_last C S q find m s s' u : acts_through find -> sr_run C S q find m s = (s', Ok u) ->
  exists s1 a w, ca_background a = None /\ ca_approx a = "CGS" /\ ca_order a = Some 3%Z /\
    (forall k, In k provided -> number k s -> number k s1) /\ calibrate_scale_factor C S q a s1 = (s', Ok w).
Proof.
  intros HF E. destruct m as [rho w|N rho|N n rho]; unfold sr_run in E.
  - apply bind_inv in E as (s1 & x & E & E'). injection E' as <- _. exists s, (args_reheating rho w), x. auto 6.
  - apply bind_inv in E as (s1 & x & E & E'). injection E' as <- _. exists s, (args_N_star N rho), x. auto 6.
  - apply bind_inv in E as (s1 & x & E1 & E). apply bind_inv in E as (s2 & y & E & E'). injection E' as <- _.
    assert (NK : forall v, keeps provided (Nstar2ns_minus_ns C S q n v)).
    { intros v. unfold Nstar2ns_minus_ns. kbind; [apply keeps_calibrate; reflexivity|]. keep. }
    unfold set_ns in E. apply bind_inv in E as (s3 & K & E2 & E). injection E2 as <- _.
    destruct (negb (feq K (Fin 0))); [discriminate|]. apply bind_inv in E as (s4 & v1 & E3 & E). cbv zeta in E.
    apply bind_inv in E as (s5 & v2 & E4 & E). destruct (_ && _)%bool in E; [discriminate|]. destruct (_ && _)%bool in E; [discriminate|].
    apply bind_inv in E as (s6 & root & E5 & E). exists s6, (args_N_star root rho), y. repeat (split; [reflexivity|]). split; [|exact E].
    intros k I HN. refine (HF _ _ _ _ _ _ E5 (number k) _ _); [intros x' u0 u' v X; exact (NK _ _ _ _ X k I)|].
    apply (NK _ _ _ _ E4 k I), (NK _ _ _ _ E3 k I), (keeps_calibrate C S q (args_N_star N rho) eq_refl _ _ _ E1 k I HN).
Qed.

Lemma mapM_get s l : (forall k, In k l -> number k s) -> exists d,
  mapM (fun p (s : attrs) => (s, do v <- getattr s p; Ok (p, v))) l s = (s, Ok d) /\ map fst d = l /\
  (forall p v, In (p, v) d -> dict_get p s = Some v /\ exists x, v = VF x).
Proof.
  induction l as [|k l IH]; intros H.
  - exists []. split; [reflexivity|]. split; [reflexivity|]. intros p v [].
  - destruct IH as (d & E & M & V); [intros j J; apply H; right; exact J|]. destruct (H k (or_introl eq_refl)) as [x X].
    exists ((k, VF x) :: d). split; [|split].
    + cbn [mapM]. unfold bindM at 1. unfold getattr at 1. rewrite X. cbn [bind]. unfold bindM at 1. rewrite E. reflexivity.
    + cbn [map fst]. rewrite M. reflexivity.
    + intros p v [Y|Y]; [injection Y as <- <-; eauto|exact (V p v Y)].
Qed.
Lemma mapM_pure {A B} (f : A -> M B) (g : A -> B) s l : (forall a, In a l -> f a s = (s, Ok (g a))) -> mapM f l s = (s, Ok (map g l)).
Proof.
  induction l as [|a l IH]; intros H; [reflexivity|]. cbn [mapM map]. unfold bindM. rewrite (H a (or_introl eq_refl)).
  rewrite IH; [reflexivity|]. intros b J. apply H. right. exact J.
Qed.

(** the slow-roll wrapper: when the background has its end-of-inflation values and the calibration stage succeeds, the
    output stage cannot fail, does not change the background object, returns one positive power per wavenumber for
    both spectra, and a dictionary with exactly the advertised parameter names, in order, each with the number that the
    background object has under that name; at the pivot the spectra are the reported A_s and A_t, and their ratio is r *)
Theorem C98_output : forall C S q find m s s' u ks, acts_through find ->
  number "phi_end" s -> number "V_end" s -> number "H_end" s ->
  sr_run C S q find m s = (s', Ok u) ->
  exists Ps Pt d As At, sr_tail C S q ks s' = (s', Ok (Ps, Pt, d)) /\
    List.length Ps = List.length ks /\ List.length Pt = List.length ks /\
    (forall P, In P Ps -> 0 < P) /\ (forall P, In P Pt -> 0 < P) /\
    map fst d = provided /\ (forall p v, In (p, v) d -> dict_get p s' = Some v /\ exists x, v = VF x) /\
    In ("A_s", VF (Fin As)) d /\ In ("A_t", VF (Fin At)) d /\ In ("r", VF (Fin (At / As))) d /\
    (forall i, nth_error ks i = Some (K_STAR C) -> nth_error Ps i = Some As /\ nth_error Pt i = Some At).
Proof.
  intros C S q find m s s' u ks HF H1 H2 H3 E.
  destruct (run_last C S q find m s s' u HF E) as (s1 & a & w & NB & AP & OR & KP & EC).
  destruct (C98_calibration C S q a s1 s' (Ok w) NB EC) as [K1 K2]. specialize (K2 w eq_refl).
  assert (ALL : forall k, In k provided -> number k s').
  { intros k I. destruct (in_dec string_dec k calibrated_keys) as [J|NJ]; [exact (K2 k J)|]. apply (K1 k I), (KP k I).
    unfold provided in I. unfold calibrated_keys in NJ. cbn [In] in I, NJ.
    repeat (destruct I as [<-|I]; [solve [assumption|exfalso; tauto]|]). destruct I. }
  destruct (mapM_get s' provided ALL) as (d & ED & MD & VD).
  assert (PV : pivot_values C S s').
  { unfold calibrate_scale_factor in EC. rewrite NB, AP, OR in EC.
    apply bind_inv in EC as (s2 & [] & _ & EC). apply bind_inv in EC as (s3 & w' & _ & EC). apply bind_inv in EC as (s4 & [] & ED' & EC).
    injection EC as <- _. exact (derive_pivot C S q _ _ _ _ ED'). }
  destruct PV as (n & e & ka & kb & (S1 & S2 & _ & _) & VAs & VAt & Vr).
  set (fs := fun k => exp (spl_eval S n e ka 0 (ln k))). set (ft := fun k => exp (spl_eval S n e kb 0 (ln k))).
  assert (Es : mapM (fun k => P_approx C S q "s" k "CGS" (Some 3%Z) default_opts) ks s' = (s', Ok (map fs ks))).
  { apply mapM_pure. intros k _. unfold P_approx. cbn [String.append]. change (String.eqb "CGS" "CGS") with true. cbn [order_is Z.eqb Pos.eqb orb].
    unfold call_spl. rewrite (run_bind_getS _ _ _ _ _ _ S1). reflexivity. }
  assert (Et : mapM (fun k => P_approx C S q "t" k "CGS" (Some 3%Z) default_opts) ks s' = (s', Ok (map ft ks))).
  { apply mapM_pure. intros k _. unfold P_approx. cbn [String.append]. change (String.eqb "CGS" "CGS") with true. cbn [order_is Z.eqb Pos.eqb orb].
    unfold call_spl. rewrite (run_bind_getS _ _ _ _ _ _ S2). reflexivity. }
  assert (IND : forall k v, In k provided -> dict_get k s' = Some v -> In (k, v) d).
  { intros k v I G. rewrite <- MD in I. apply in_map_iff in I as ((k', v') & F & I). cbn [fst] in F. subst k'.
    destruct (VD k v' I) as [G' _]. rewrite G in G'. injection G' as ->. exact I. }
  exists (map fs ks), (map ft ks), d, (fs (K_STAR C)), (ft (K_STAR C)).
  split; [|split; [|split; [|split; [|split; [|split; [|split; [|split; [|split; [|split] ] ] ] ] ] ] ] ].
  - unfold sr_tail. unfold bindM at 1. rewrite Es. unfold bindM at 1. rewrite Et. unfold bindM at 1. unfold derived_dict. rewrite ED. reflexivity.
  - apply map_length.
  - apply map_length.
  - intros P I. apply in_map_iff in I as (k & <- & _). apply exp_pos.
  - intros P I. apply in_map_iff in I as (k & <- & _). apply exp_pos.
  - exact MD.
  - exact VD.
  - apply IND; [isin|exact VAs].
  - apply IND; [isin|exact VAt].
  - apply IND; [isin|exact Vr].
  - intros i G. split; apply map_nth_error; exact G.
Qed.

(** what solve() guarantees beforehand: the end-of-inflation values are numbers (possibly NaN) *)
Lemma number_set k j v s : String.eqb k j = false -> number k s -> number k (setattr j v s).
Proof. intros N H. unfold number, setattr. rewrite get_set, N. exact H. Qed.
Lemma number_new k v s : number k (setattr k (VF v) s).
Proof. exists v. unfold setattr. apply get_set_eq. Qed.
Ltac num := repeat first [apply number_new | apply number_set; [reflexivity|]]; try assumption.
Theorem C98_solved : forall fmt q verbose events ivp s ws, solve fmt q verbose events ivp = Ok (s, ws) ->
  number "phi_end" s /\ number "V_end" s /\ number "H_end" s.
Proof.
  intros fmt q verbose events ivp s ws E. unfold solve, inflation_sol in E.
  destruct (base_sol _ _ _) as [s0|] eqn:E0; [|discriminate]. cbn [bind] in E.
  destruct (get_A s0 "x") as [xs|]; [|discriminate]. cbn [bind] in E.
  destruct (getattr s0 "y") as [v|]; [|discriminate]. cbn [bind] in E.
  destruct (as_M v) as [m|]; [|discriminate]. cbn [bind] in E.
  destruct (columnwise (e_w q) xs (snd m)) as [w|]; [|discriminate]. cbn [bind] in E.
  destruct (postprocessing_inflation_start q verbose _) as [r1|]; [|discriminate]. cbn [bind] in E.
  destruct (postprocessing_inflation_end q verbose (fst r1)) as [r2|] eqn:E2; [|discriminate]. cbn [bind] in E.
  assert (P : number "phi_end" (fst r2) /\ number "V_end" (fst r2) /\ number "H_end" (fst r2)).
  { unfold postprocessing_inflation_end in E2.
    set (t := setattr "V_end" _ _) in E2.
    assert (T : number "phi_end" t /\ number "V_end" t /\ number "H_end" t) by (unfold t; repeat split; num).
    clearbody t. destruct T as (T1 & T2 & T3). destruct (get_DT t "_N_events") as [Nev|]; [|discriminate]. cbn [bind] in E2.
    assert (EF : forall key t', end_from q key t = Ok t' -> number "phi_end" t' /\ number "V_end" t' /\ number "H_end" t').
    { intros key t' E'. unfold end_from in E'.
      repeat match goal with
      | H : bind ?x _ = Ok _ |- _ => destruct x; [cbn [bind] in H|discriminate H]
      end. cbv zeta in E'.
      repeat match goal with
      | H : bind ?x _ = Ok _ |- _ => destruct x; [cbn [bind] in H|discriminate H]
      end. injection E' as <-. repeat split; num. }
    match type of E2 with bind ?x _ = _ => destruct x as [t1|] eqn:X end; [|discriminate]. cbn [bind] in E2.
    assert (T : number "phi_end" t1 /\ number "V_end" t1 /\ number "H_end" t1).
    { destruct (fired _ _) in X; [exact (EF _ _ X)|]. destruct (fired _ _) in X; [exact (EF _ _ X)|]. injection X as <-. auto. }
    destruct T as (U1 & U2 & U3). destruct (get_F t1 "phi_end") as [p|]; [|discriminate]. cbn [bind] in E2.
    destruct p; injection E2 as <-; cbn [fst]; repeat split; num. }
  destruct P as (P1 & P2 & P3). cbv zeta in E.
  repeat match goal with
  | H : bind ?x _ = Ok _ |- _ => destruct x; [cbn [bind] in H|discriminate H]
  end. injection E as <- _.
  destruct (_ && _)%bool; repeat split; num.
Qed.

(** the whole of it, from solve() to the wrapper's state *)
Theorem C98_wrapper : forall fmt e verbose events ivp s ws C S q find m s' u ks, acts_through find ->
  solve fmt e verbose events ivp = Ok (s, ws) -> sr_run C S q find m s = (s', Ok u) ->
  exists Ps Pt d, sr_tail C S q ks s' = (s', Ok (Ps, Pt, d)) /\ List.length Ps = List.length ks /\ List.length Pt = List.length ks /\
    map fst d = ["N_star"; "N_end"; "phi_end"; "V_end"; "H_end"; "N_reh"; "w_reh"; "DeltaN_reh"; "rho_reh_GeV"; "DeltaN_minus1";
                 "A_s"; "n_s"; "n_run"; "n_runrun"; "A_t"; "n_t"; "r"] /\
    (forall p v, In (p, v) d -> dict_get p s' = Some v /\ exists x, v = VF x).
Proof.
  intros fmt e verbose events ivp s ws C S q find m s' u ks HF ES ER. destruct (C98_solved _ _ _ _ _ _ _ ES) as (H1 & H2 & H3).
  destruct (C98_output C S q find m s s' u ks HF H1 H2 H3 ER) as (Ps & Pt & d & As & At & X1 & X2 & X3 & _ & _ & X4 & X5 & _).
  exists Ps, Pt, d. auto 6.
Qed.

(** a background with a root finder that meets the hypotheses, and a calibration that succeeds *)
Lemma mid_through : acts_through mid_find.
Proof.
  intros f lo hi s s' r E I K HI. unfold mid_find in E. apply bind_inv in E as (s1 & v & E1 & E). destruct v as [z| | |]; try discriminate.
  destruct (Req_EM_T z 0); [|discriminate]. injection E as <- _. exact (K _ _ _ _ E1 HI).
Qed.
Theorem C98_nonvacuous U : let q := mkaeqs AT 0 U in let s := ("phi_end", VF (Fin 0)) :: exs 0 in
  acts_through mid_find /\ number "phi_end" s /\ number "V_end" s /\ number "H_end" s /\
  exists s' u, sr_run exC exS q mid_find (ByNstar 2 None) s = (s', Ok u).
Proof.
  intros q s. split; [exact mid_through|]. repeat (split; [eexists; reflexivity|]).
  destruct (exa_pure 2 ltac:(lra)) as (o & EP & _).
  assert (HB : background s (exb 0)) by (pose proof (exs_bg 0) as H; unfold background, scal, arr in H |- *; exact H).
  assert (HF : fields s [4; 3; 2; 1] [1/2; 1/2; 1/2; 1/2]) by (pose proof (exs_fields 0) as H; unfold fields in H |- *; exact H).
  destruct (calibrate_succeeds exC exS q (exa 2) s (exb 0) o _ _ 3%nat exC_ok (exa_sane _) HB eq_refl EP HF ltac:(cbn; lia) exS_ok eq_refl eq_refl ltac:(lia)) as (s' & w & E & _).
  exists s', tt. unfold sr_run. unfold exa in E. unfold bindM. rewrite E. reflexivity.
Qed.

(** the reheating mode and the N_star mode of the wrapper are the same calibration: calibrate a flat background by hand
    with (w_reh, DeltaN_reh); given the resulting density and w_reh, or the resulting density and N_star, the wrapper
    succeeds and finds the same calibration, spectral parameters and reheating parameters *)
Theorem C98_reheating : forall C S q find s b s1 ws w dn ph dp,
  consts_ok C -> background s b -> increasing b -> a_K q = 0 -> fields s ph dp -> -1/3 <= w -> w <> 1/3 -> 0 < dn ->
  calibrate_scale_factor C S q (mkargs (Some "reheating") None None None None (Some dn) (Some w) None 100 None "CGS" (Some 3%Z) default_opts) s = (s1, Ok ws) ->
  exists rho ns, scal s1 "w_reh" w /\ scal s1 "rho_reh_GeV" rho /\ scal s1 "N_star" ns /\
    (exists s2, sr_run C S q find (ByReheating rho w) s = (s2, Ok tt) /\ agree calibration s1 s2 /\ agree reheating s1 s2) /\
    (exists s2, sr_run C S q find (ByNstar ns (Some rho)) s = (s2, Ok tt) /\ agree calibration s1 s2 /\ agree reheating s1 s2).
Proof.
  intros C S q find s b s1 ws w dn ph dp HC HB HI HK HF Hw Hw3 Hdn E.
  set (a := mkargs None None None None None None None None 100 None "CGS" (Some 3%Z) default_opts).
  destruct (C39_flat_parametrisations C S q a s b s1 ws w dn ph dp HC ltac:(cbn; lra) HB HI eq_refl HK HF ltac:(cbn; lia)
    ltac:(right; right; left; split; [reflexivity|]; exists 3%Z; split; [reflexivity|lia]) Hw Hw3 Hdn E) as (rho & dm & ns & A1 & A2 & A3 & A4 & A5 & A6 & _).
  exists rho, ns. do 3 (split; [assumption|]). split.
  - destruct (A6 (args_reheating rho w) (or_introl eq_refl)) as (s2 & E2 & G1 & G2). exists s2. unfold sr_run, bindM. rewrite E2. auto.
  - destruct (A6 (args_N_star ns (Some rho)) ltac:(right; right; right; left; reflexivity)) as (s2 & E2 & G1 & G2). exists s2. unfold sr_run, bindM. rewrite E2. auto.
Qed.
Definition exC' : consts := mkconsts (exp (- (exL + ln 100 / 12) - 3)) 1 1 1 1 1 1 1 0 1.
Lemma exC'_ok : consts_ok exC'.
Proof. unfold consts_ok, exC'; cbn. repeat split; try lra. apply exp_pos. Qed.
Theorem C98_reheating_nonvacuous : forall U, exists s1 ws rho ns s2, 
  calibrate_scale_factor exC' exS (mkaeqs AT 0 U) (mkargs (Some "reheating") None None None None (Some 2) (Some 0) None 100 None "CGS" (Some 3%Z) default_opts) (exs 0) = (s1, Ok ws) /\
  scal s1 "rho_reh_GeV" rho /\ scal s1 "N_star" ns /\ sr_run exC' exS (mkaeqs AT 0 U) mid_find (ByReheating rho 0) (exs 0) = (s2, Ok tt).
Proof.
  intros U. set (a := mkargs None None None None None None None None 100 None "CGS" (Some 3%Z) default_opts).
  assert (EP : exists o, pure_first exC' (with_reh a "reheating" None (Some 0) (Some 2) None None) 0 (exb 0) = Ok o).
  { unfold pure_first. destruct (Req_EM_T 0 0); [|lra]. cbn [with_reh a ca_Omega_K0 ca_method bind String.eqb Ascii.eqb Bool.eqb]. fold a.
    unfold pure_flat_reheating. rewrite (not_bad a 0 2) by lra. rewrite (reh_A exC' a (exb 0) 0 2) by lra.
    cbn [bind fst snd]. cbv zeta. unfold base_end.
    assert (G : lgg exC' (with_reh a "reheating" None (Some 0) (Some 2) None None) = exL + ln 100 / 12) by reflexivity. rewrite G.
    assert (LK : lgK exC' = - (exL + ln 100 / 12) - 3).
    { unfold lgK, K_STAR_lp, exC'. cbn [K_STAR Mpc_m lp_m]. match goal with |- ln (exp ?e / 1 * 1) = _ => replace (exp e / 1 * 1) with (exp e) by field end. apply ln_exp. }
    rewrite LK. assert (LV : lgV exC' 1 = 0) by (unfold lgV, exC'; cbn [T_CMB_Tp]; replace (1 / 1^4) with 1 by field; rewrite ln_1; field).
    cbn [exb b_end b_beg b_Hbeg b_Hend b_Vend]. rewrite LV, ln_1. fold (exb 0). set (L := exL + ln 100 / 12).
    destruct (Rlt_dec _ _); [exfalso; lra|]. destruct (Rlt_dec _ _); [exfalso; lra|].
    rewrite exb_maskedL. change (combine [0; 1; 2; 3] (maskedN (exb 0))) with [(0, 0); (1, 1); (2, 2); (3, 3)]. rewrite ex_interp by lra. cbn [bind]. eexists. reflexivity. }
  destruct EP as (o & EP).
  assert (SN : sane (with_reh a "reheating" None (Some 0) (Some 2) None None)) by (split; cbn; [lra|discriminate]).
  destruct (calibrate_succeeds exC' exS (mkaeqs AT 0 U) _ (exs 0) (exb 0) o _ _ 3%nat exC'_ok SN (exs_bg 0) eq_refl EP (exs_fields 0) ltac:(cbn; lia) exS_ok eq_refl eq_refl ltac:(lia)) as (s' & w & E & P & F).
  destruct (C98_reheating exC' exS (mkaeqs AT 0 U) mid_find (exs 0) (exb 0) s' w 0 2 _ _ exC'_ok (exs_bg 0) (exb_increasing 0) eq_refl (exs_fields 0) ltac:(lra) ltac:(lra) ltac:(lra) E)
    as (rho & ns & A1 & A2 & A3 & (s2 & A4 & _) & _).
  exists s', w, rho, ns, s2. auto.
Qed.
