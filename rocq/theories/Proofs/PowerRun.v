(** Refinement of the approximate power spectra: on a calibrated background the mutating
    methods store the splines given by the pure functions below. *)
From Coq Require Import Reals List String ZArith Bool Lra Lia.
From Verif Require Import Base Model.Equations Model.Background Model.Float Model.Solution Model.Interp Model.State Model.Reheating
  Model.ApproxPower Model.Calibrate Spec.CalibSpec Proofs.BaseLemmas Proofs.FloatLemmas Proofs.DictLemmas Proofs.StateLemmas Proofs.CalibFrame
  Proofs.CalibPure.
Import ListNotations.
Open Scope R_scope.
Open Scope string_scope.

(** what the spectra depend on *)
Record pin := mkpin { p_K : R; p_N : list R; p_H : list R; p_phi : list R; p_dphi : list R; p_lk : list R; p_nc : R }.
(** masked samples, the wavenumbers and the horizon crossing of the pivot scale of object [s] *)
Definition powered (s : attrs) (p : pin) : Prop :=
  scal s "K" (p_K p) /\ scal s "_N_cross" (p_nc p) /\ arr s "logk" (p_lk p) /\
  exists m N H ph dp, dict_get "inflation_mask" s = Some (VB m) /\ arr s "_N" N /\ arr s "H" H /\ arr s "phi" ph /\
    arr s (if has_key "dphidt" s then "dphidt" else "dphidN") dp /\
    select m N = p_N p /\ select m H = p_H p /\ select m ph = p_phi p /\ select m dp = p_dphi p.

Definition pin_attrs : list string := ["K"; "_N_cross"; "logk"; "inflation_mask"; "_N"; "H"; "phi"; "dphidt"; "dphidN"].
Lemma has_key_get (k : string) (s : attrs) : has_key k s = match dict_get k s with Some _ => true | None => false end.
Proof. reflexivity. Qed.
Lemma powered_frame s s' p : powered s p -> (forall k, In k pin_attrs -> dict_get k s' = dict_get k s) -> powered s' p.
Proof.
  unfold powered, scal, arr. intros H F. rewrite has_key_get, (F "dphidt") by (unfold pin_attrs; inl). rewrite <- has_key_get.
  rewrite (F "K"), (F "_N_cross"), (F "logk") by (unfold pin_attrs; inl).
  destruct H as (H1 & H2 & H3 & m & N & Hh & ph & dp & G). split; [exact H1|]. split; [exact H2|]. split; [exact H3|]. exists m, N, Hh, ph, dp.
  rewrite (F "inflation_mask"), (F "_N"), (F "H"), (F "phi") by (unfold pin_attrs; inl).
  destruct (has_key "dphidt" s); rewrite F by (unfold pin_attrs; inl); exact G.
Qed.

Lemma powered_closure s s1 p k1 k2 v1 v2 : powered s p -> (forall k, k <> "P_scalar_approx" -> k <> "P_tensor_approx" -> dict_get k s1 = dict_get k s) ->
  ~ In k1 pin_attrs -> ~ In k2 pin_attrs -> powered (setattr k1 v1 (setattr k2 v2 s1)) p.
Proof.
  intros H F N1 N2. eapply powered_frame; [exact H|]. intros k I. unfold setattr. rewrite get_set_neq by (intros ->; contradiction).
  rewrite get_set_neq by (intros ->; contradiction). apply F; intros ->; revert I; unfold pin_attrs; ni.
Qed.
Lemma run_masked {B} (k : string) m l (f : list R -> M B) s :
  dict_get k s = Some (VA (map Fin l)) -> dict_get "inflation_mask" s = Some (VB m) ->
  bindM (masked k) f s = f (select m l) s.
Proof.
  intros E1 E2. unfold masked. rewrite run_bind_bind. erewrite run_bind_getA by exact E1. rewrite run_bind_bind. erewrite run_bind_getB by exact E2.
  rewrite select_map, reals_map. reflexivity.
Qed.
Definition pflows (q : aeqs) (p : pin) : list flow := flows q (p_K p) (p_N p) (p_H p) (p_phi p) (p_dphi p).
Lemma run_sample_flows {B} q s p (f : samples * list flow -> M B) : powered s p ->
  bindM (sample_flows q) f s = f (mksamples (p_N p) (p_H p) (p_phi p) (p_dphi p), pflows q p) s.
Proof.
  intros (H1 & H2 & H3 & m & N & Hh & ph & dp & G1 & G2 & G3 & G4 & G5 & E1 & E2 & E3 & E4). unfold scal, arr in *.
  unfold sample_flows. rewrite run_bind_bind. unfold getR. rewrite run_bind_bind. erewrite run_bind_getF by exact H1. cbn [as_R]. rewrite run_bind_lift.
  rewrite run_bind_bind. unfold get_samples. rewrite !run_bind_bind. erewrite run_masked by eassumption. rewrite run_bind_bind.
  erewrite run_masked by eassumption. rewrite run_bind_bind. erewrite run_masked by eassumption. rewrite run_bind_bind.
  assert (EH : forall (X : bool -> M B), bindM (hasattr "dphidt") X s = X (has_key "dphidt" s) s) by reflexivity.
  rewrite EH. rewrite run_bind_bind.
  assert (ED : forall X : list R -> M B, bindM (if has_key "dphidt" s then masked "dphidt" else masked "dphidN") X s = X (select m dp) s).
  { intros X. destruct (has_key "dphidt" s); erewrite run_masked by eassumption; reflexivity. }
  rewrite ED. rewrite run_bind_ret. rewrite run_bind_ret. cbn [sm_N sm_H sm_phi sm_dphi]. rewrite E1, E2, E3, E4. reflexivity.
Qed.
Lemma run_get_logk {B} s lk (f : list R -> M B) : arr s "logk" lk -> bindM get_logk f s = f lk s.
Proof. intros H. unfold get_logk. rewrite run_bind_bind. erewrite run_bind_getA by exact H. rewrite reals_map. reflexivity. Qed.

Definition buildR (S : splines) (o : splopts) (kn : list (R * R) * list (R * R)) : res (val * val) :=
  if spl_accept S (o_k o) (fst kn) then
    if spl_accept S (o_k o) (snd kn) then Ok (VSpl (o_k o) (o_ext o) (fst kn), VSpl (o_k o) (o_ext o) (snd kn)) else Raise ValueError
  else Raise ValueError.
Lemma run_build2 {B} S o kn (f : val * val -> M B) s : bindM (build2 S o (fst kn) (snd kn)) f s =
  match buildR S o kn with Ok v => f v s | Raise e => (s, Raise e) end.
Proof. unfold build2, build, buildR. destruct (spl_accept S (o_k o) (fst kn)); [|reflexivity]. destruct (spl_accept S (o_k o) (snd kn)); reflexivity. Qed.

(** ** CGS *)
Definition cgs_Ps (C : consts) (q : aeqs) (p : pin) (n : nat) : list R := zipw (fun H f => Ps0 H (fe1 f) * cgs_s C f n) (p_H p) (pflows q p).
Definition cgs_Pt (C : consts) (q : aeqs) (p : pin) (n : nat) : list R := zipw (fun H f => Pt0 H * cgs_t C f n) (p_H p) (pflows q p).
Definition cgs_val (C : consts) (S : splines) (q : aeqs) (o : splopts) (p : pin) (n : nat) : res (val * val) :=
  buildR S o (log_knots (p_lk p) (cgs_Ps C q p n) (cgs_Pt C q p n)).
Definition vals4 (f : nat -> res (val * val)) : res ((val * val) * (val * val) * (val * val) * (val * val)) :=
  do v0 <- f 0%nat; do v1 <- f 1%nat; do v2 <- f 2%nat; do v3 <- f 3%nat; Ok (v0, v1, v2, v3).

Lemma cgs_order_run {B} C S q o ord n suf s p (f : val * val -> M B) : powered s p -> ~ In ("P_s_approx_" ++ suf) pin_attrs -> ~ In ("P_t_approx_" ++ suf) pin_attrs ->
  match cgs_val C S q o p n with
  | Raise e => snd (bindM (cgs_order C S o ord n suf (p_H p) (pflows q p)) f s) = Raise e
  | Ok v => exists s1, bindM (cgs_order C S o ord n suf (p_H p) (pflows q p)) f s =
        f v (setattr ("P_t_approx_" ++ suf) (snd v) (setattr ("P_s_approx_" ++ suf) (fst v) s1)) /\
      (forall k, k <> "P_scalar_approx" -> k <> "P_tensor_approx" -> dict_get k s1 = dict_get k s)
  end.
Proof.
  intros HP N1 N2. unfold cgs_order. cbv zeta.
  set (Ps := zipw _ _ _). set (Pt := zipw (fun H f => Pt0 H * _) _ _).
  set (s1 := if order_is ord (Z.of_nat n) then setattr "P_tensor_approx" (VA (map Fin Pt)) (setattr "P_scalar_approx" (VA (map Fin Ps)) s) else s).
  assert (F : forall k, k <> "P_scalar_approx" -> k <> "P_tensor_approx" -> dict_get k s1 = dict_get k s).
  { intros k A A'. unfold s1. destruct (order_is ord (Z.of_nat n)); [|reflexivity]. unfold setattr. rewrite !get_set_neq by assumption. reflexivity. }
  assert (HP1 : powered s1 p).
  { eapply powered_frame; [exact HP|]. intros k I. apply F; intros ->; revert I; unfold pin_attrs; ni. }
  assert (E : bindM ((if order_is ord (Z.of_nat n) then setP Ps Pt else retM tt);; lk <<- get_logk; v <<- build2 S o (fst (log_knots lk Ps Pt)) (snd (log_knots lk Ps Pt)); setclosure suf v;; retM v) f s
    = match cgs_val C S q o p n with Ok v => f v (setattr ("P_t_approx_" ++ suf) (snd v) (setattr ("P_s_approx_" ++ suf) (fst v) s1)) | Raise e => (s1, Raise e) end).
  { rewrite run_bind_bind.
    assert (EI : forall X : unit -> M B, bindM (if order_is ord (Z.of_nat n) then setP Ps Pt else retM tt) X s = X tt s1).
    { intros X. unfold s1. destruct (order_is ord (Z.of_nat n)); reflexivity. }
    rewrite EI. rewrite run_bind_bind. rewrite (run_get_logk s1 (p_lk p)) by apply HP1. rewrite run_bind_bind, run_build2.
    fold (cgs_Ps C q p n) (cgs_Pt C q p n). fold (cgs_val C S q o p n). 
    unfold cgs_val, cgs_Ps, cgs_Pt. fold Ps Pt. destruct (buildR S o (log_knots (p_lk p) Ps Pt)); reflexivity. }
  rewrite E. destruct (cgs_val C S q o p n) as [v|e]; [|reflexivity]. exists s1. split; [reflexivity|exact F].
Qed.

(** the splines the object refers to after CGS *)
Definition pick (ord : option Z) (v : (val * val) * (val * val) * (val * val) * (val * val)) : option (val * val) :=
  let '(v0, v1, v2, v3) := v in
  if order_is ord 0 then Some v0 else if order_is ord 1 then Some v1 else if order_is ord 2 then Some v2 else if order_is ord 3 then Some v3 else None.
Definition has_cgs (s : attrs) (v : (val * val) * (val * val) * (val * val) * (val * val)) : Prop :=
  let '(v0, v1, v2, v3) := v in
  dict_get "P_s_approx_CGS0" s = Some (fst v0) /\ dict_get "P_t_approx_CGS0" s = Some (snd v0) /\
  dict_get "P_s_approx_CGS1" s = Some (fst v1) /\ dict_get "P_t_approx_CGS1" s = Some (snd v1) /\
  dict_get "P_s_approx_CGS2" s = Some (fst v2) /\ dict_get "P_t_approx_CGS2" s = Some (snd v2) /\
  dict_get "P_s_approx_CGS3" s = Some (fst v3) /\ dict_get "P_t_approx_CGS3" s = Some (snd v3).
Definition has_spl (s0 s : attrs) (v : option (val * val)) : Prop :=
  match v with
  | Some v => dict_get "logk2logP_s" s = Some (fst v) /\ dict_get "logk2logP_t" s = Some (snd v)
  | None => dict_get "logk2logP_s" s = dict_get "logk2logP_s" s0 /\ dict_get "logk2logP_t" s = dict_get "logk2logP_t" s0
  end.

Lemma pin_not_in ks : forallb (fun k => negb (existsb (String.eqb k) ks)) pin_attrs = true -> forall k, In k pin_attrs -> ~ In k ks.
Proof.
  intros H k I J. rewrite forallb_forall in H. specialize (H k I). apply negb_true_iff in H.
  assert (T : existsb (String.eqb k) ks = true) by (apply existsb_exists; exists k; split; [exact J|apply String.eqb_refl]). congruence.
Qed.
Lemma powered_touch {A} (m : M A) s s' r p : touches power_attrs m -> m s = (s', r) -> powered s p -> powered s' p.
Proof. intros T E H. eapply powered_frame; [exact H|]. intros k I. exact (T _ _ _ E k (pin_not_in power_attrs eq_refl k I)). Qed.

Lemma CGS_run C S q o ord s p : powered s p ->
  match vals4 (cgs_val C S q o p) with
  | Raise e => snd (derive_CGS C S q o ord s) = Raise e
  | Ok v => exists s', derive_CGS C S q o ord s = (s', Ok tt) /\ has_cgs s' v /\ has_spl s s' (pick ord v)
  end.
Proof.
  intros HP. unfold derive_CGS. rewrite (run_sample_flows q s p) by exact HP. cbn [fst snd sm_H]. unfold vals4.
  Ltac cstep n suf HP :=
    match goal with |- context [bindM (cgs_order ?C ?S ?o ?ord n suf (p_H ?p) (pflows ?q ?p)) ?f ?s] =>
      let R := fresh "R" in
      pose proof (cgs_order_run C S q o ord n suf s p f HP) as R;
      cbn [String.append] in R;
      let v := fresh "v" in let e := fresh "e" in let s1 := fresh "s" in let E := fresh "E" in let F := fresh "F" in let HP' := fresh "HP" in
      destruct (cgs_val C S q o p n) as [v|e]; cbn [bind];
      [ destruct R as (s1 & E & F); [unfold pin_attrs; ni|unfold pin_attrs; ni|]; rewrite E; clear E;
        match type of HP with powered ?s0 _ =>
        assert (HP' : powered (setattr ("P_t_approx_" ++ suf) (snd v) (setattr ("P_s_approx_" ++ suf) (fst v) s1)) p)
          by (apply (powered_closure s0); [exact HP|exact F|unfold pin_attrs; cbn [String.append]; ni|unfold pin_attrs; cbn [String.append]; ni])
        end; cbn [String.append] in HP'
      | apply R; unfold pin_attrs; ni ] end.
  cstep 0%nat "CGS0" HP. cstep 1%nat "CGS1" HP0. cstep 2%nat "CGS2" HP1. cstep 3%nat "CGS3" HP2.
  unfold pick. 
  assert (G1 : has_cgs (setattr "P_t_approx_CGS3" (snd v2) (setattr "P_s_approx_CGS3" (fst v2) s3)) (v, v0, v1, v2)).
  { unfold has_cgs, setattr in *.
    repeat split; repeat (first [rewrite get_set_eq; reflexivity | rewrite get_set_neq by discriminate | rewrite F2 by discriminate | rewrite F1 by discriminate | rewrite F0 by discriminate]). }
  assert (G2 : has_spl s (setattr "P_t_approx_CGS3" (snd v2) (setattr "P_s_approx_CGS3" (fst v2) s3)) None).
  { unfold has_spl, setattr in *.
    split; repeat (first [rewrite get_set_neq by discriminate | rewrite F2 by discriminate | rewrite F1 by discriminate | rewrite F0 by discriminate | rewrite F by discriminate]); reflexivity. }
  set (s9 := setattr "P_t_approx_CGS3" _ _) in *. clearbody s9.
  assert (G3 : forall u, exists s', setspl u s9 = (s', Ok tt) /\ has_cgs s' (v, v0, v1, v2) /\ has_spl s s' (Some u)).
  { intros u. eexists. split; [reflexivity|]. unfold has_cgs, has_spl, setattr in *.
    repeat split; repeat (first [rewrite get_set_eq; reflexivity | rewrite get_set_neq by discriminate]); tauto. }
  destruct (order_is ord 0); [apply G3|]. destruct (order_is ord 1); [apply G3|]. destruct (order_is ord 2); [apply G3|]. destruct (order_is ord 3); [apply G3|].
  exists s9. split; [reflexivity|]. split; assumption.
Qed.

(** ** LLMS, STE and ARBDS *)
Definition at_nc (p : pin) (vs : list R) : res R := do v <- interp_fl (map Fin (p_N p)) (map Fin vs) (Fin (p_nc p)); as_R v.
Lemma run_at_cross {B} s p vs (f : R -> M B) : scal s "_N_cross" (p_nc p) -> bindM (at_cross (p_N p) vs) f s =
  match at_nc p vs with Ok v => f v s | Raise e => (s, Raise e) end.
Proof.
  intros H. unfold at_cross, at_nc. rewrite run_bind_bind. erewrite run_bind_getF by exact H. rewrite run_bind_bind.
  destruct (interp_fl _ _ _) as [v|e]; [|reflexivity]. cbn [bind]. rewrite run_bind_lift. destruct (as_R v); reflexivity.
Qed.
(** H, epsilon_1, epsilon_2, epsilon_3 at the crossing *)
Definition cross4 (q : aeqs) (p : pin) : res (R * R * R * R) :=
  do H <- at_nc p (p_H p); do e1 <- at_nc p (map fe1 (pflows q p)); do e2 <- at_nc p (map fe2 (pflows q p)); do e3 <- at_nc p (map fe3 (pflows q p));
  Ok (H, e1, e2, e3).
Definition llms_val (C : consts) (S : splines) (q : aeqs) (o : splopts) (p : pin) : res (val * val) :=
  do c <- cross4 q p; let '(H, e1, e2, e3) := c in
  buildR S o (combine (p_lk p) (map (llms_logP_s (llms_C C) e1 e2 e3 H) (LK C (p_lk p))), combine (p_lk p) (map (llms_logP_t (llms_C C) e1 e2 H) (LK C (p_lk p)))).
Definition ste_val (C : consts) (S : splines) (q : aeqs) (o : splopts) (p : pin) : res (val * val) :=
  buildR S o (log_knots (p_lk p)
    (zipw (fun H f => Ps0 H (fe1 f) * ste_as0 (llms_C C) (fe1 f) (fe2 f) (fe3 f)) (p_H p) (pflows q p))
    (zipw (fun H f => Pt0 H * ste_at0 (llms_C C) (fe1 f) (fe2 f)) (p_H p) (pflows q p))).
Definition has_one (s : attrs) (suf : string) (v : val * val) : Prop :=
  dict_get ("P_s_approx_" ++ suf) s = Some (fst v) /\ dict_get ("P_t_approx_" ++ suf) s = Some (snd v).
Lemma LLMS_run C S q o s p : powered s p ->
  match llms_val C S q o p with
  | Raise e => snd (derive_LLMS C S q o s) = Raise e
  | Ok v => exists s', derive_LLMS C S q o s = (s', Ok tt) /\ has_one s' "LLMS" v /\ has_spl s s' (Some v)
  end.
Proof.
  intros HP. unfold derive_LLMS. rewrite (run_sample_flows q s p) by exact HP. cbn [fst snd sm_H sm_N]. unfold llms_val, cross4.
  rewrite run_at_cross by apply HP. destruct (at_nc p (p_H p)) as [H|e]; [|reflexivity]. cbn [bind].
  rewrite run_at_cross by apply HP. destruct (at_nc p (map fe1 _)) as [e1|e]; [|reflexivity]. cbn [bind].
  rewrite run_at_cross by apply HP. destruct (at_nc p (map fe2 _)) as [e2|e]; [|reflexivity]. cbn [bind].
  rewrite run_at_cross by apply HP. destruct (at_nc p (map fe3 _)) as [e3|e]; [|reflexivity]. cbn [bind].
  rewrite (run_get_logk s (p_lk p)) by apply HP. cbv zeta.
  match goal with |- context [buildR S o ?kn] => change (build2 S o (combine (p_lk p) (map (llms_logP_s (llms_C C) e1 e2 e3 H) (LK C (p_lk p)))) (combine (p_lk p) (map (llms_logP_t (llms_C C) e1 e2 H) (LK C (p_lk p))))) with (build2 S o (fst kn) (snd kn)) end.
  rewrite run_build2. destruct (buildR S o _) as [v|e]; [|reflexivity].
  eexists. split; [reflexivity|]. unfold has_one, has_spl, setattr. cbn [String.append].
  repeat split; repeat (first [rewrite get_set_eq; reflexivity | rewrite get_set_neq by discriminate]).
Qed.
Lemma STE_run C S q o s p : powered s p ->
  match ste_val C S q o p with
  | Raise e => snd (derive_STE C S q o s) = Raise e
  | Ok v => exists s', derive_STE C S q o s = (s', Ok tt) /\ has_one s' "STE" v /\ has_spl s s' (Some v)
  end.
Proof.
  intros HP. unfold derive_STE. rewrite (run_sample_flows q s p) by exact HP. cbn [fst snd sm_H sm_N]. unfold ste_val.
  rewrite (run_get_logk s (p_lk p)) by apply HP. cbv zeta.
  rewrite run_build2. destruct (buildR S o _) as [v|e]; [|reflexivity].
  eexists. split; [reflexivity|]. unfold has_one, has_spl, setattr. cbn [String.append].
  repeat split; repeat (first [rewrite get_set_eq; reflexivity | rewrite get_set_neq by discriminate]).
Qed.
Definition arbds_val (C : consts) (S : splines) (q : aeqs) (o : splopts) (p : pin) (n : nat) : res (val * val) :=
  do c <- cross4 q p; let '(H, e1, e2, e3) := c in
  buildR S o (log_knots (p_lk p)
    (map (fun L => Ps0 H e1 * arbds_s (arbds_alpha C) (arbds_Z C) e1 e2 e3 0 n L) (LK C (p_lk p)))
    (map (fun L => Pt0 H * arbds_t (arbds_alpha C) (arbds_Z C) e1 e2 e3 n L) (LK C (p_lk p)))).
Definition vals3 (f : nat -> res (val * val)) : res ((val * val) * (val * val) * (val * val)) :=
  do v1 <- f 1%nat; do v2 <- f 2%nat; do v3 <- f 3%nat; Ok (v1, v2, v3).
Definition pick3 (ord : option Z) (v : (val * val) * (val * val) * (val * val)) : option (val * val) :=
  let '(v1, v2, v3) := v in
  if order_is ord 1 then Some v1 else if order_is ord 2 then Some v2 else if order_is ord 3 then Some v3 else None.
Definition has_arbds (s : attrs) (v : (val * val) * (val * val) * (val * val)) : Prop :=
  let '(v1, v2, v3) := v in has_one s "ARBDS1" v1 /\ has_one s "ARBDS2" v2 /\ has_one s "ARBDS3" v3.
Lemma arbds_order_run {B} C S o ord n suf H e1 e2 e3 lk s (f : val * val -> M B) :
  let kn := log_knots lk
    (map (fun L => Ps0 H e1 * arbds_s (arbds_alpha C) (arbds_Z C) e1 e2 e3 0 n L) (LK C lk))
    (map (fun L => Pt0 H * arbds_t (arbds_alpha C) (arbds_Z C) e1 e2 e3 n L) (LK C lk)) in
  exists s1, (forall k, k <> "P_scalar_approx" -> k <> "P_tensor_approx" -> dict_get k s1 = dict_get k s) /\
  bindM (arbds_order C S o ord n suf H e1 e2 e3 lk) f s =
  match buildR S o kn with
  | Ok v => f v (setattr ("P_t_approx_" ++ suf) (snd v) (setattr ("P_s_approx_" ++ suf) (fst v) s1))
  | Raise e => (s, Raise e) end.
Proof.
  intros kn. unfold arbds_order. cbv zeta. rewrite run_bind_bind, run_build2. fold kn. destruct (buildR S o kn) as [v|e].
  - rewrite run_bind_bind. destruct (order_is ord (Z.of_nat n)).
    + eexists. split; [|reflexivity]. intros k A A'. unfold setattr. rewrite !get_set_neq by assumption. reflexivity.
    + exists s. split; reflexivity.
  - exists s. split; reflexivity.
Qed.
Lemma ARBDS_run C S q o ord s p : powered s p ->
  match vals3 (arbds_val C S q o p) with
  | Raise e => snd (derive_ARBDS C S q o ord s) = Raise e
  | Ok v => exists s', derive_ARBDS C S q o ord s = (s', Ok tt) /\ has_arbds s' v /\ has_spl s s' (pick3 ord v)
  end.
Proof.
  intros HP. unfold derive_ARBDS. rewrite (run_sample_flows q s p) by exact HP. cbn [fst snd sm_H sm_N]. unfold vals3, arbds_val.
  destruct (cross4 q p) as [[[[H e1] e2] e3]|e] eqn:E4; unfold cross4 in E4.
  2:{ cbn [bind]. rewrite run_at_cross by apply HP. destruct (at_nc p (p_H p)) as [H|e']; [|injection E4 as <-; reflexivity]. cbn [bind] in E4.
    rewrite run_at_cross by apply HP. destruct (at_nc p (map fe1 _)) as [e1|e']; [|injection E4 as <-; reflexivity]. cbn [bind] in E4.
    rewrite run_at_cross by apply HP. destruct (at_nc p (map fe2 _)) as [e2|e']; [|injection E4 as <-; reflexivity]. cbn [bind] in E4.
    rewrite run_at_cross by apply HP. destruct (at_nc p (map fe3 _)) as [e3|e']; [discriminate E4|injection E4 as <-; reflexivity]. }
  rewrite run_at_cross by apply HP. destruct (at_nc p (p_H p)) as [H'|e']; [|discriminate]. cbn [bind] in E4.
  rewrite run_at_cross by apply HP. destruct (at_nc p (map fe1 _)) as [e1'|e']; [|discriminate]. cbn [bind] in E4.
  rewrite run_at_cross by apply HP. destruct (at_nc p (map fe2 _)) as [e2'|e']; [|discriminate]. cbn [bind] in E4.
  rewrite run_at_cross by apply HP. destruct (at_nc p (map fe3 _)) as [e3'|e']; [|discriminate]. cbn [bind] in E4. injection E4 as -> -> -> ->.
  rewrite (run_get_logk s (p_lk p)) by apply HP. cbn [bind].
  match goal with |- context [bindM (arbds_order C S o ord 1%nat ?suf H e1 e2 e3 ?lk) ?f ?st] => destruct (arbds_order_run C S o ord 1%nat suf H e1 e2 e3 lk st f) as (s1 & F1 & ->) end.
  destruct (buildR S o _) as [v1|e]; [|reflexivity]. cbn [bind].
  match goal with |- context [bindM (arbds_order C S o ord 2%nat ?suf H e1 e2 e3 ?lk) ?f ?st] => destruct (arbds_order_run C S o ord 2%nat suf H e1 e2 e3 lk st f) as (s2 & F2 & ->) end.
  destruct (buildR S o _) as [v2|e]; [|reflexivity]. cbn [bind].
  match goal with |- context [bindM (arbds_order C S o ord 3%nat ?suf H e1 e2 e3 ?lk) ?f ?st] => destruct (arbds_order_run C S o ord 3%nat suf H e1 e2 e3 lk st f) as (s3 & F3 & ->) end.
  destruct (buildR S o _) as [v3|e]; [|reflexivity]. cbn [bind String.append] in *. unfold pick3.
  assert (G1 : has_arbds (setattr "P_t_approx_ARBDS3" (snd v3) (setattr "P_s_approx_ARBDS3" (fst v3) s3)) (v1, v2, v3)).
  { unfold has_arbds, has_one, setattr in *. cbn [String.append].
    repeat split; repeat (first [rewrite get_set_eq; reflexivity | rewrite get_set_neq by discriminate | rewrite F3 by discriminate | rewrite F2 by discriminate]). }
  assert (G2 : has_spl s (setattr "P_t_approx_ARBDS3" (snd v3) (setattr "P_s_approx_ARBDS3" (fst v3) s3)) None).
  { unfold has_spl, setattr in *.
    split; repeat (first [rewrite get_set_neq by discriminate | rewrite F3 by discriminate | rewrite F2 by discriminate | rewrite F1 by discriminate]); reflexivity. }
  set (s9 := setattr "P_t_approx_ARBDS3" _ _) in *. clearbody s9.
  assert (G3 : forall u, exists s', setspl u s9 = (s', Ok tt) /\ has_arbds s' (v1, v2, v3) /\ has_spl s s' (Some u)).
  { intros u. eexists. split; [reflexivity|]. unfold has_arbds, has_one, has_spl, setattr in *. cbn [String.append] in *.
    repeat split; repeat (first [rewrite get_set_eq; reflexivity | rewrite get_set_neq by discriminate]); tauto. }
  destruct (order_is ord 1); [apply G3|]. destruct (order_is ord 2); [apply G3|]. destruct (order_is ord 3); [apply G3|].
  exists s9. split; [reflexivity|]. split; assumption.
Qed.

(** ** derived parameters *)
(** the spline pair that derive_approx_power leaves in logk2logP_s/t for a documented method and order *)
Definition spl_val (C : consts) (S : splines) (q : aeqs) (me : string) (ord : option Z) (o : splopts) (p : pin) : res (option (val * val)) :=
  if String.eqb me "CGS" then do v <- vals4 (cgs_val C S q o p); Ok (pick ord v)
  else if String.eqb me "LLMS" then do v <- llms_val C S q o p; Ok (Some v)
  else if String.eqb me "STE" then do v <- ste_val C S q o p; Ok (Some v)
  else if String.eqb me "ARBDS" then do v <- vals3 (arbds_val C S q o p); Ok (pick3 ord v)
  else Ok None.
Definition has_params (C : consts) (S : splines) (s : attrs) (o : splopts) (kn : list (R * R) * list (R * R)) : Prop :=
  let ev l j := spl_eval S (o_k o) (o_ext o) l j (ln (K_STAR C)) in
  scal s "A_s" (exp (ev (fst kn) 0%nat)) /\ scal s "n_s" (1 + ev (fst kn) 1%nat) /\ scal s "n_run" (ev (fst kn) 2%nat) /\ scal s "n_runrun" (ev (fst kn) 3%nat) /\
  scal s "A_t" (exp (ev (snd kn) 0%nat)) /\ scal s "n_t" (ev (snd kn) 1%nat) /\ scal s "r" (exp (ev (snd kn) 0%nat) / exp (ev (fst kn) 0%nat)).
Lemma buildR_Ok S o kn v : buildR S o kn = Ok v -> v = (VSpl (o_k o) (o_ext o) (fst kn), VSpl (o_k o) (o_ext o) (snd kn)).
Proof. unfold buildR. destruct (spl_accept S (o_k o) (fst kn)), (spl_accept S (o_k o) (snd kn)); try discriminate. intros [= <-]. reflexivity. Qed.
Lemma params_run C S s o kn : (3 <= o_k o)%nat ->
  dict_get "logk2logP_s" s = Some (VSpl (o_k o) (o_ext o) (fst kn)) -> dict_get "logk2logP_t" s = Some (VSpl (o_k o) (o_ext o) (snd kn)) ->
  exists s', (ds <<- getS "logk2logP_s"; dt <<- getS "logk2logP_t";
  let x := ln (K_STAR C) in
  s0 <<- liftM (deriv_at S ds 0 x); setF "A_s" (Fin (exp s0));;
  s1 <<- liftM (deriv_at S ds 1 x); setF "n_s" (Fin (1 + s1));;
  s2 <<- liftM (deriv_at S ds 2 x); setF "n_run" (Fin s2);;
  s3 <<- liftM (deriv_at S ds 3 x); setF "n_runrun" (Fin s3);;
  t0 <<- liftM (deriv_at S dt 0 x); setF "A_t" (Fin (exp t0));;
  t1 <<- liftM (deriv_at S dt 1 x); setF "n_t" (Fin t1);;
  setF "r" (Fin (exp t0 / exp s0))) s = (s', Ok tt) /\ has_params C S s' o kn /\
    (forall k, ~ In k derived_attrs -> dict_get k s' = dict_get k s).
Proof.
  intros H3 E1 E2. erewrite run_bind_getS by exact E1. erewrite run_bind_getS by exact E2. cbv zeta.
  assert (D : forall j l x, (j <= 3)%nat -> deriv_at S (o_k o, o_ext o, l) j x = Ok (spl_eval S (o_k o) (o_ext o) l j x)).
  { intros j l x Hj. unfold deriv_at. cbn [fst snd]. assert (L : Nat.leb j (o_k o) = true) by (apply Nat.leb_le; lia). rewrite L. reflexivity. }
  repeat (first [rewrite D by lia; rewrite run_bind_lift | rewrite run_bind_setF]).
  eexists. split; [reflexivity|]. split.
  - unfold has_params, scal, setattr. repeat split; repeat (first [rewrite get_set_eq; reflexivity | rewrite get_set_neq by discriminate]).
  - intros k N. unfold setattr. rewrite !get_set_neq; [reflexivity|..]; intros ->; apply N; unfold derived_attrs; inl.
Qed.

Lemma vals4_inv f v : vals4 f = Ok v -> let '(v0, v1, v2, v3) := v in f 0%nat = Ok v0 /\ f 1%nat = Ok v1 /\ f 2%nat = Ok v2 /\ f 3%nat = Ok v3.
Proof. unfold vals4. destruct (f 0%nat), (f 1%nat), (f 2%nat), (f 3%nat); try discriminate. intros [= <-]. auto. Qed.
Lemma vals3_inv f v : vals3 f = Ok v -> let '(v1, v2, v3) := v in f 1%nat = Ok v1 /\ f 2%nat = Ok v2 /\ f 3%nat = Ok v3.
Proof. unfold vals3. destruct (f 1%nat), (f 2%nat), (f 3%nat); try discriminate. intros [= <-]. auto. Qed.
Lemma llms_shape C S q o p v : llms_val C S q o p = Ok v -> exists kn, v = (VSpl (o_k o) (o_ext o) (fst kn), VSpl (o_k o) (o_ext o) (snd kn)).
Proof. unfold llms_val. destruct (cross4 q p) as [[[[H e1] e2] e3]|]; [|discriminate]. cbn [bind]. intros E. eexists. exact (buildR_Ok _ _ _ _ E). Qed.
Lemma arbds_shape C S q o p n v : arbds_val C S q o p n = Ok v -> exists kn, v = (VSpl (o_k o) (o_ext o) (fst kn), VSpl (o_k o) (o_ext o) (snd kn)).
Proof. unfold arbds_val. destruct (cross4 q p) as [[[[H e1] e2] e3]|]; [|discriminate]. cbn [bind]. intros E. eexists. exact (buildR_Ok _ _ _ _ E). Qed.
Lemma spl_val_shape C S q me ord o p v : spl_val C S q me ord o p = Ok (Some v) -> exists kn, v = (VSpl (o_k o) (o_ext o) (fst kn), VSpl (o_k o) (o_ext o) (snd kn)).
Proof.
  unfold spl_val. destruct (String.eqb me "CGS").
  { destruct (vals4 _) as [[[[v0 v1] v2] v3]|] eqn:E; [|discriminate]. cbn [bind]. apply vals4_inv in E. destruct E as (E0 & E1 & E2 & E3).
    unfold pick. destruct (order_is ord 0); [intros [= <-]; eexists; exact (buildR_Ok _ _ _ _ E0)|]. destruct (order_is ord 1); [intros [= <-]; eexists; exact (buildR_Ok _ _ _ _ E1)|].
    destruct (order_is ord 2); [intros [= <-]; eexists; exact (buildR_Ok _ _ _ _ E2)|]. destruct (order_is ord 3); [intros [= <-]; eexists; exact (buildR_Ok _ _ _ _ E3)|]. discriminate. }
  destruct (String.eqb me "LLMS"). { destruct (llms_val _ _ _ _ _) eqn:E; [|discriminate]. cbn [bind]. intros [= <-]. exact (llms_shape _ _ _ _ _ _ E). }
  destruct (String.eqb me "STE"). { destruct (ste_val _ _ _ _ _) eqn:E; [|discriminate]. cbn [bind]. intros [= <-]. eexists. exact (buildR_Ok _ _ _ _ E). }
  destruct (String.eqb me "ARBDS"); [|discriminate].
  destruct (vals3 _) as [[[v1 v2] v3]|] eqn:E; [|discriminate]. cbn [bind]. apply vals3_inv in E. destruct E as (E1 & E2 & E3).
  unfold pick3. destruct (order_is ord 1); [intros [= <-]; exact (arbds_shape _ _ _ _ _ _ _ E1)|].
  destruct (order_is ord 2); [intros [= <-]; exact (arbds_shape _ _ _ _ _ _ _ E2)|]. destruct (order_is ord 3); [intros [= <-]; exact (arbds_shape _ _ _ _ _ _ _ E3)|]. discriminate.
Qed.

(** the closures of the method that was derived *)
Definition has_closures (C : consts) (S : splines) (q : aeqs) (me : string) (o : splopts) (p : pin) (s : attrs) : Prop :=
  (me = "CGS" -> exists v, vals4 (cgs_val C S q o p) = Ok v /\ has_cgs s v) /\
  (me = "LLMS" -> exists v, llms_val C S q o p = Ok v /\ has_one s "LLMS" v) /\
  (me = "STE" -> exists v, ste_val C S q o p = Ok v /\ has_one s "STE" v) /\
  (me = "ARBDS" -> exists v, vals3 (arbds_val C S q o p) = Ok v /\ has_arbds s v).
Lemma has_cgs_frame s s' v : has_cgs s v -> (forall k, In k power_attrs -> dict_get k s' = dict_get k s) -> has_cgs s' v.
Proof. destruct v as [[[v0 v1] v2] v3]. unfold has_cgs. intros H F. rewrite !F by (unfold power_attrs; inl). exact H. Qed.
Lemma derive_run C S q me ord o s p : powered s p -> (3 <= o_k o)%nat ->
  match spl_val C S q me ord o p with
  | Raise e => snd (derive_approx_power C S q me ord o s) = Raise e
  | Ok (Some v) => exists s' kn, derive_approx_power C S q me ord o s = (s', Ok tt) /\
      v = (VSpl (o_k o) (o_ext o) (fst kn), VSpl (o_k o) (o_ext o) (snd kn)) /\
      has_params C S s' o kn /\ has_spl s s' (Some v) /\ has_closures C S q me o p s'
  | Ok None => True
  end.
Proof.
  intros HP H3. unfold derive_approx_power. destruct (spl_val C S q me ord o p) as [[v|]|e] eqn:ES; [|exact I|].
  - destruct (spl_val_shape _ _ _ _ _ _ _ _ ES) as (kn & Ev).
    assert (FIRST : exists s1, (if String.eqb me "CGS" then derive_CGS C S q o ord else if String.eqb me "LLMS" then derive_LLMS C S q o else if String.eqb me "STE" then derive_STE C S q o
        else if String.eqb me "ARBDS" then derive_ARBDS C S q o ord else retM tt) s = (s1, Ok tt) /\ has_spl s s1 (Some v) /\ has_closures C S q me o p s1).
    { unfold spl_val in ES. unfold has_closures. destruct (String.eqb_spec me "CGS") as [->|n1].
      { pose proof (CGS_run C S q o ord s p HP) as R. destruct (vals4 _) as [w|]; [|discriminate]. cbn [bind] in ES. injection ES as EP. rewrite EP in R.
        destruct R as (s' & E & G & L). exists s'. split; [exact E|]. split; [exact L|]. split; [eauto|]. split; [|split]; discriminate. }
      destruct (String.eqb_spec me "LLMS") as [->|n2].
      { pose proof (LLMS_run C S q o s p HP) as R. destruct (llms_val _ _ _ _ _) as [w|]; [|discriminate]. cbn [bind] in ES. injection ES as ->.
        destruct R as (s' & E & G & L). exists s'. split; [exact E|]. split; [exact L|]. split; [discriminate|]. split; [eauto|]. split; discriminate. }
      destruct (String.eqb_spec me "STE") as [->|n3].
      { pose proof (STE_run C S q o s p HP) as R. destruct (ste_val _ _ _ _ _) as [w|]; [|discriminate]. cbn [bind] in ES. injection ES as ->.
        destruct R as (s' & E & G & L). exists s'. split; [exact E|]. split; [exact L|]. split; [discriminate|]. split; [discriminate|]. split; [eauto|discriminate]. }
      destruct (String.eqb_spec me "ARBDS") as [->|n4]; [|discriminate].
      pose proof (ARBDS_run C S q o ord s p HP) as R. destruct (vals3 _) as [w|]; [|discriminate]. cbn [bind] in ES. injection ES as EP. rewrite EP in R.
      destruct R as (s' & E & G & L). exists s'. split; [exact E|]. split; [exact L|]. split; [discriminate|]. split; [discriminate|]. split; [discriminate|eauto]. }
    destruct FIRST as (s1 & E1 & [L1 L2] & G). unfold bindM at 1. rewrite E1.
    subst v. destruct (params_run C S s1 o kn H3 L1 L2) as (s2 & E2 & P & F). exists s2, kn. split; [exact E2|]. split; [reflexivity|]. split; [exact P|].
    assert (FP : forall k, In k power_attrs -> dict_get k s2 = dict_get k s1).
    { intros k Ik. apply F. revert Ik. clear. unfold power_attrs, derived_attrs. cbn [In]. intros H.
      repeat (destruct H as [<-|H]; [intros J; repeat (destruct J as [J|J]; [discriminate J|]); exact J|]). destruct H. }
    split; [split; rewrite FP by (unfold power_attrs; inl); assumption|].
    unfold has_closures in *. destruct G as (G1 & G2 & G3 & G4). unfold has_one in *. cbn [String.append] in *.
    split; [intros E; destruct (G1 E) as (w & X & Y); exists w; split; [exact X|exact (has_cgs_frame _ _ _ Y FP)]|].
    split; [intros E; destruct (G2 E) as (w & X & Y); exists w; split; [exact X|]; rewrite !FP by (unfold power_attrs; inl); exact Y|].
    split; [intros E; destruct (G3 E) as (w & X & Y); exists w; split; [exact X|]; rewrite !FP by (unfold power_attrs; inl); exact Y|].
    intros E; destruct (G4 E) as ([[w1 w2] w3] & X & Y); exists (w1, w2, w3); split; [exact X|]. unfold has_arbds, has_one in *. cbn [String.append] in *.
    rewrite !FP by (unfold power_attrs; inl); exact Y.
  - unfold bindM at 1.
    assert (FIRST : snd ((if String.eqb me "CGS" then derive_CGS C S q o ord else if String.eqb me "LLMS" then derive_LLMS C S q o else if String.eqb me "STE" then derive_STE C S q o
        else if String.eqb me "ARBDS" then derive_ARBDS C S q o ord else retM tt) s) = Raise e).
    { unfold spl_val in ES. destruct (String.eqb me "CGS").
      { pose proof (CGS_run C S q o ord s p HP) as R. destruct (vals4 _) as [w|]; [discriminate|]. injection ES as <-. exact R. }
      destruct (String.eqb me "LLMS"). { pose proof (LLMS_run C S q o s p HP) as R. destruct (llms_val _ _ _ _ _) as [w|]; [discriminate|]. injection ES as <-. exact R. }
      destruct (String.eqb me "STE"). { pose proof (STE_run C S q o s p HP) as R. destruct (ste_val _ _ _ _ _) as [w|]; [discriminate|]. injection ES as <-. exact R. }
      destruct (String.eqb me "ARBDS"); [|discriminate].
      pose proof (ARBDS_run C S q o ord s p HP) as R. destruct (vals3 _) as [w|]; [discriminate|]. injection ES as <-. exact R. }
    match type of FIRST with snd ?t = _ => destruct t as [s1 r] end. cbn [snd] in FIRST. subst r. reflexivity.
Qed.
