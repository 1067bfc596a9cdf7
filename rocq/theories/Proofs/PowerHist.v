(** Histories of spectrum queries and derivations after a calibration. *)
From Coq Require Import Reals List String ZArith Bool Lra Lia.
From Verif Require Import Base Model.Equations Model.Background Model.Float Model.Solution Model.Interp Model.State Model.Reheating
  Model.ApproxPower Model.Calibrate Spec.CalibSpec Proofs.BaseLemmas Proofs.FloatLemmas Proofs.DictLemmas Proofs.StateLemmas Proofs.CalibFrame
  Proofs.CalibPure Proofs.CalibPure2 Proofs.CalibPure3 Proofs.CalibRun Proofs.PowerRun Proofs.CalibResult Proofs.CalibTotal.
Import ListNotations.
Open Scope R_scope.
Open Scope string_scope.

Definition spl_keys : list string := ["P_scalar_approx"; "P_tensor_approx"; "logk2logP_s"; "logk2logP_t"].
Definition cgs_keys : list string :=
  ["P_s_approx_CGS0"; "P_t_approx_CGS0"; "P_s_approx_CGS1"; "P_t_approx_CGS1"; "P_s_approx_CGS2"; "P_t_approx_CGS2"; "P_s_approx_CGS3"; "P_t_approx_CGS3"].
Definition one_keys (suf : string) : list string := ["P_s_approx_" ++ suf; "P_t_approx_" ++ suf].
Definition arbds_keys : list string :=
  ["P_s_approx_ARBDS1"; "P_t_approx_ARBDS1"; "P_s_approx_ARBDS2"; "P_t_approx_ARBDS2"; "P_s_approx_ARBDS3"; "P_t_approx_ARBDS3"].
Lemma touches_CGS' C S q o ord : touches (spl_keys ++ cgs_keys) (derive_CGS C S q o ord).
Proof. unfold spl_keys, cgs_keys. cbn [app]. touch2. Qed.
Lemma touches_LLMS' C S q o : touches (spl_keys ++ one_keys "LLMS") (derive_LLMS C S q o).
Proof. unfold spl_keys, one_keys. cbn [app String.append]. touch2. Qed.
Lemma touches_STE' C S q o : touches (spl_keys ++ one_keys "STE") (derive_STE C S q o).
Proof. unfold spl_keys, one_keys. cbn [app String.append]. touch2. Qed.
Lemma touches_ARBDS' C S q o ord : touches (spl_keys ++ arbds_keys) (derive_ARBDS C S q o ord).
Proof. unfold spl_keys, arbds_keys. cbn [app]. touch2. Qed.

(** preservation of a predicate on objects by a computation, whether or not it raises *)
Definition pres {A} (I : attrs -> Prop) (m : M A) : Prop := forall s, I s -> I (fst (m s)).
Lemma pres_bind {A B} I (m : M A) (f : A -> M B) : pres I m -> (forall a, pres I (f a)) -> pres I (bindM m f).
Proof. intros H1 H2 s Hs. unfold bindM. specialize (H1 s Hs). destruct (m s) as [s1 [a|e]]; cbn [fst] in *; [apply H2, H1|exact H1]. Qed.
Lemma pres_ret {A} I (a : A) : pres I (retM a). Proof. intros s H. exact H. Qed.
(** a predicate that only looks at the attributes [ks'] *)
Definition looks (ks' : list string) (I : attrs -> Prop) : Prop := forall s s', I s -> (forall k, In k ks' -> dict_get k s' = dict_get k s) -> I s'.
Definition disjoint (l l' : list string) : bool := forallb (fun k => negb (existsb (String.eqb k) l')) l.
Lemma disjoint_in l l' : disjoint l l' = true -> forall k, In k l -> ~ In k l'.
Proof.
  intros H k I J. unfold disjoint in H. rewrite forallb_forall in H. specialize (H k I). apply negb_true_iff in H.
  assert (T : existsb (String.eqb k) l' = true) by (apply existsb_exists; exists k; split; [exact J|apply String.eqb_refl]). congruence.
Qed.
Lemma pres_touch {A} ks ks' I (m : M A) : touches ks m -> looks ks' I -> disjoint ks' ks = true -> pres I m.
Proof.
  intros T L D s Hs. destruct (m s) as [s' r] eqn:E. cbn [fst]. apply (L s); [exact Hs|]. intros k Ik. exact (T _ _ _ E k (disjoint_in _ _ D k Ik)).
Qed.

Section Hist.
Variables (C : consts) (S : splines) (q : aeqs) (o : splopts) (p : pin).
Definition absent (ks : list string) (s : attrs) : Prop := forall k, In k ks -> dict_get k s = None.
Definition base_inv (s : attrs) : Prop := powered s p /\ absent (one_keys "ARBDS") s.
Definition cgs_inv (s : attrs) : Prop := base_inv s /\ exists v, vals4 (cgs_val C S q o p) = Ok v /\ has_cgs s v.
Definition one_inv (suf : string) (r : res (val * val)) (s : attrs) : Prop :=
  base_inv s /\ (absent (one_keys suf) s \/ exists v, r = Ok v /\ has_one s suf v).
Lemma looks_base : looks (pin_attrs ++ one_keys "ARBDS") base_inv.
Proof.
  intros s s' [P A] F. split; [apply (powered_frame s); [exact P|]; intros k I; apply F, in_or_app; left; exact I|].
  intros k I. rewrite F by (apply in_or_app; right; exact I). apply A, I.
Qed.
Lemma looks_app ks ks' I : looks ks I -> looks (ks ++ ks') I.
Proof. intros L s s' H F. apply (L s); [exact H|]. intros k Ik. apply F, in_or_app. left. exact Ik. Qed.
Lemma looks_cgs : looks ((pin_attrs ++ one_keys "ARBDS") ++ cgs_keys) cgs_inv.
Proof.
  intros s s' [B (v & E & G)] F. split; [exact (looks_app _ _ _ looks_base s s' B F)|]. exists v. split; [exact E|].
  destruct v as [[[v0 v1] v2] v3]. unfold has_cgs in *. rewrite !F by (apply in_or_app; right; unfold cgs_keys; inl). exact G.
Qed.
Lemma looks_one suf r : looks ((pin_attrs ++ one_keys "ARBDS") ++ one_keys suf) (one_inv suf r).
Proof.
  intros s s' [B G] F. split; [exact (looks_app _ _ _ looks_base s s' B F)|]. destruct G as [A|(v & E & G1 & G2)].
  - left. intros k I. rewrite F by (apply in_or_app; right; exact I). apply A, I.
  - right. exists v. split; [exact E|]. split; rewrite F by (apply in_or_app; right; unfold one_keys; inl); assumption.
Qed.
Ltac by_touch T L := eapply pres_touch; [exact T|exact L|reflexivity].
Lemma pres_base_CGS ord : pres base_inv (derive_CGS C S q o ord). Proof. by_touch (touches_CGS' C S q o ord) looks_base. Qed.
Lemma pres_base_LLMS : pres base_inv (derive_LLMS C S q o). Proof. by_touch (touches_LLMS' C S q o) looks_base. Qed.
Lemma pres_base_STE : pres base_inv (derive_STE C S q o). Proof. by_touch (touches_STE' C S q o) looks_base. Qed.
Lemma pres_base_ARBDS ord : pres base_inv (derive_ARBDS C S q o ord). Proof. by_touch (touches_ARBDS' C S q o ord) looks_base. Qed.

Lemma pres_cgs_CGS ord : pres cgs_inv (derive_CGS C S q o ord).
Proof.
  intros s [B (v & E & G)]. split; [apply pres_base_CGS, B|]. pose proof (CGS_run C S q o ord s p (proj1 B)) as R. rewrite E in R.
  destruct R as (s' & ER & G' & _). rewrite ER. exists v. split; [exact E|exact G'].
Qed.
Lemma pres_cgs_LLMS : pres cgs_inv (derive_LLMS C S q o). Proof. by_touch (touches_LLMS' C S q o) looks_cgs. Qed.
Lemma pres_cgs_STE : pres cgs_inv (derive_STE C S q o). Proof. by_touch (touches_STE' C S q o) looks_cgs. Qed.
Lemma pres_cgs_ARBDS ord : pres cgs_inv (derive_ARBDS C S q o ord). Proof. by_touch (touches_ARBDS' C S q o ord) looks_cgs. Qed.

Definition ll_inv := one_inv "LLMS" (llms_val C S q o p).
Definition st_inv := one_inv "STE" (ste_val C S q o p).
Lemma build2_raises ks kt f s e : buildR S o (ks, kt) = Raise e -> bindM (build2 S o ks kt) f s = (s, @Raise unit e).
Proof. intros E. change ks with (fst (ks, kt)). change kt with (snd (fst (ks, kt), kt)). cbn [fst snd]. pose proof (run_build2 S o (ks, kt) f s) as R. cbn [fst snd] in R. rewrite R, E. reflexivity. Qed.
Lemma LLMS_raise s e : powered s p -> llms_val C S q o p = Raise e -> derive_LLMS C S q o s = (s, Raise e).
Proof.
  intros HP E. unfold derive_LLMS. rewrite (run_sample_flows q s p) by exact HP. cbn [fst snd sm_H sm_N]. unfold llms_val, cross4 in E.
  rewrite run_at_cross by apply HP. destruct (at_nc p (p_H p)) as [H|e']; [|injection E as ->; reflexivity]. cbn [bind] in E.
  rewrite run_at_cross by apply HP. destruct (at_nc p (map fe1 _)) as [e1|e']; [|injection E as ->; reflexivity]. cbn [bind] in E.
  rewrite run_at_cross by apply HP. destruct (at_nc p (map fe2 _)) as [e2|e']; [|injection E as ->; reflexivity]. cbn [bind] in E.
  rewrite run_at_cross by apply HP. destruct (at_nc p (map fe3 _)) as [e3|e']; [|injection E as ->; reflexivity]. cbn [bind] in E.
  rewrite (run_get_logk s (p_lk p)) by apply HP. cbv zeta. apply build2_raises, E.
Qed.
Lemma STE_raise s e : powered s p -> ste_val C S q o p = Raise e -> derive_STE C S q o s = (s, Raise e).
Proof.
  intros HP E. unfold derive_STE. rewrite (run_sample_flows q s p) by exact HP. cbn [fst snd sm_H sm_N].
  rewrite (run_get_logk s (p_lk p)) by apply HP. cbv zeta. unfold ste_val in E. destruct (log_knots _ _ _) as [ks kt] eqn:EL. cbn [fst snd]. apply build2_raises, E.
Qed.
Lemma pres_ll_LLMS : pres ll_inv (derive_LLMS C S q o).
Proof.
  intros s [B G]. split; [apply pres_base_LLMS, B|]. pose proof (LLMS_run C S q o s p (proj1 B)) as R.
  destruct (llms_val C S q o p) as [v|e] eqn:E.
  - destruct R as (s' & ER & G' & _). rewrite ER. right. exists v. split; [reflexivity|exact G'].
  - rewrite (LLMS_raise s e (proj1 B) E). exact G.
Qed.
Lemma pres_st_STE : pres st_inv (derive_STE C S q o).
Proof.
  intros s [B G]. split; [apply pres_base_STE, B|]. pose proof (STE_run C S q o s p (proj1 B)) as R.
  destruct (ste_val C S q o p) as [v|e] eqn:E.
  - destruct R as (s' & ER & G' & _). rewrite ER. right. exists v. split; [reflexivity|exact G'].
  - rewrite (STE_raise s e (proj1 B) E). exact G.
Qed.
Lemma pres_ll_CGS ord : pres ll_inv (derive_CGS C S q o ord). Proof. by_touch (touches_CGS' C S q o ord) (looks_one "LLMS" (llms_val C S q o p)). Qed.
Lemma pres_ll_STE : pres ll_inv (derive_STE C S q o). Proof. by_touch (touches_STE' C S q o) (looks_one "LLMS" (llms_val C S q o p)). Qed.
Lemma pres_ll_ARBDS ord : pres ll_inv (derive_ARBDS C S q o ord). Proof. by_touch (touches_ARBDS' C S q o ord) (looks_one "LLMS" (llms_val C S q o p)). Qed.
Lemma pres_st_CGS ord : pres st_inv (derive_CGS C S q o ord). Proof. by_touch (touches_CGS' C S q o ord) (looks_one "STE" (ste_val C S q o p)). Qed.
Lemma pres_st_LLMS : pres st_inv (derive_LLMS C S q o). Proof. by_touch (touches_LLMS' C S q o) (looks_one "STE" (ste_val C S q o p)). Qed.
Lemma pres_st_ARBDS ord : pres st_inv (derive_ARBDS C S q o ord). Proof. by_touch (touches_ARBDS' C S q o ord) (looks_one "STE" (ste_val C S q o p)). Qed.

(** any invariant preserved by the four derivations is preserved by everything *)
Definition robust (I : attrs -> Prop) : Prop :=
  (exists ks, looks ks I /\ disjoint ks derived_attrs = true) /\ (forall ord, pres I (derive_CGS C S q o ord)) /\ pres I (derive_LLMS C S q o) /\ pres I (derive_STE C S q o) /\ (forall ord, pres I (derive_ARBDS C S q o ord)).
Lemma robust_base : robust base_inv.
Proof. split; [eexists; split; [exact looks_base|reflexivity]|]. split; [exact pres_base_CGS|]. split; [exact pres_base_LLMS|]. split; [exact pres_base_STE|exact pres_base_ARBDS]. Qed.
Lemma robust_cgs : robust cgs_inv.
Proof. split; [eexists; split; [exact looks_cgs|reflexivity]|]. split; [exact pres_cgs_CGS|]. split; [exact pres_cgs_LLMS|]. split; [exact pres_cgs_STE|exact pres_cgs_ARBDS]. Qed.
Lemma robust_ll : robust ll_inv.
Proof. split; [eexists; split; [apply looks_one|reflexivity]|]. split; [exact pres_ll_CGS|]. split; [exact pres_ll_LLMS|]. split; [exact pres_ll_STE|exact pres_ll_ARBDS]. Qed.
Lemma robust_st : robust st_inv.
Proof. split; [eexists; split; [apply looks_one|reflexivity]|]. split; [exact pres_st_CGS|]. split; [exact pres_st_LLMS|]. split; [exact pres_st_STE|exact pres_st_ARBDS]. Qed.

Lemma robust_derive I me ord : robust I -> pres I (derive_approx_power C S q me ord o).
Proof.
  intros ((ks & L & D) & R1 & R2 & R3 & R4). unfold derive_approx_power. apply pres_bind.
  - destruct (String.eqb me "CGS"); [apply R1|]. destruct (String.eqb me "LLMS"); [apply R2|]. destruct (String.eqb me "STE"); [apply R3|].
    destruct (String.eqb me "ARBDS"); [apply R4|apply pres_ret].
  - intros []. eapply pres_touch; [|exact L|exact D]. unfold derived_attrs. touch.
Qed.
Lemma robust_call I key k : robust I -> pres I (call_spl S key k).
Proof. intros ((ks & L & D) & _). eapply (pres_touch []); [unfold call_spl; touch|exact L|]. clear. induction ks; [reflexivity|exact IHks]. Qed.
Lemma robust_P I st k me ord : robust I -> pres I (P_approx C S q st k me ord o).
Proof.
  intros HR. pose proof HR as (_ & R1 & R2 & R3 & R4). unfold P_approx.
  repeat match goal with
  | |- pres _ (if ?b then _ else _) => destruct b
  | |- pres _ (call_spl _ _ _) => apply robust_call, HR
  | |- pres _ (bindM (hasattr _) _) => apply pres_bind; [intros ? ?; assumption|intros []]
  | |- pres _ (bindM (retM _) _) => apply pres_bind; [apply pres_ret|intros ?]
  | |- pres _ (bindM (derive_LLMS _ _ _ _) _) => apply pres_bind; [exact R2|intros ?]
  | |- pres _ (bindM (derive_STE _ _ _ _) _) => apply pres_bind; [exact R3|intros ?]
  | |- pres _ (bindM (derive_ARBDS _ _ _ _ _) _) => apply pres_bind; [apply R4|intros ?]
  end.
Qed.
End Hist.
