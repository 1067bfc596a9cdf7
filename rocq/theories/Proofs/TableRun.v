(** The tables P_scalar_approx, P_tensor_approx that derive_approx_power leaves on the object, and
    their relation to the splines. *)
From Coq Require Import Reals List String ZArith Bool Lra Lia.
From Verif Require Import Base Model.Equations Model.Background Model.Float Model.Solution Model.Interp Model.State Model.Reheating
  Model.ApproxPower Model.Calibrate Spec.CalibSpec Proofs.BaseLemmas Proofs.FloatLemmas Proofs.DictLemmas Proofs.StateLemmas Proofs.CalibFrame
  Proofs.CalibPure Proofs.PowerRun Properties.CalibProps2.
Import ListNotations.
Open Scope R_scope.
Open Scope string_scope.

Definition ste_Ps (C : consts) (q : aeqs) (p : pin) : list R :=
  zipw (fun H f => Ps0 H (fe1 f) * ste_as0 (llms_C C) (fe1 f) (fe2 f) (fe3 f)) (p_H p) (pflows q p).
Definition ste_Pt (C : consts) (q : aeqs) (p : pin) : list R :=
  zipw (fun H f => Pt0 H * ste_at0 (llms_C C) (fe1 f) (fe2 f)) (p_H p) (pflows q p).
Definition llms_Ps (C : consts) (p : pin) (H e1 e2 e3 : R) : list R := map exp (map (llms_logP_s (llms_C C) e1 e2 e3 H) (LK C (p_lk p))).
Definition llms_Pt (C : consts) (p : pin) (H e1 e2 : R) : list R := map exp (map (llms_logP_t (llms_C C) e1 e2 H) (LK C (p_lk p))).
Definition arbds_Ps (C : consts) (p : pin) (H e1 e2 e3 : R) (n : nat) : list R :=
  map (fun L => Ps0 H e1 * arbds_s (arbds_alpha C) (arbds_Z C) e1 e2 e3 0 n L) (LK C (p_lk p)).
Definition arbds_Pt (C : consts) (p : pin) (H e1 e2 e3 : R) (n : nat) : list R :=
  map (fun L => Pt0 H * arbds_t (arbds_alpha C) (arbds_Z C) e1 e2 e3 n L) (LK C (p_lk p)).

(** the tables of a method and order *)
Definition is_table (C : consts) (q : aeqs) (me : string) (ord : option Z) (p : pin) (Ps Pt : list R) : Prop :=
  (me = "CGS" -> exists n, ord = Some (Z.of_nat n) /\ (n <= 3)%nat /\ Ps = cgs_Ps C q p n /\ Pt = cgs_Pt C q p n) /\
  (me = "STE" -> Ps = ste_Ps C q p /\ Pt = ste_Pt C q p) /\
  (me = "LLMS" -> exists H e1 e2 e3, cross4 q p = Ok (H, e1, e2, e3) /\ Ps = llms_Ps C p H e1 e2 e3 /\ Pt = llms_Pt C p H e1 e2) /\
  (me = "ARBDS" -> exists H e1 e2 e3 n, cross4 q p = Ok (H, e1, e2, e3) /\ ord = Some (Z.of_nat n) /\ (1 <= n <= 3)%nat /\
      Ps = arbds_Ps C p H e1 e2 e3 n /\ Pt = arbds_Pt C p H e1 e2 e3 n).

(** state after one order *)
Definition tab (ord : option Z) (n : nat) (Ps Pt : list R) (s : attrs) : attrs :=
  if order_is ord (Z.of_nat n) then setattr "P_tensor_approx" (VA (map Fin Pt)) (setattr "P_scalar_approx" (VA (map Fin Ps)) s) else s.
Lemma tab_frame ord n Ps Pt s k : k <> "P_scalar_approx" -> k <> "P_tensor_approx" -> dict_get k (tab ord n Ps Pt s) = dict_get k s.
Proof. intros A B. unfold tab. destruct (order_is _ _); [|reflexivity]. unfold setattr. rewrite !get_set_neq by assumption. reflexivity. Qed.
Lemma tab_hit ord n Ps Pt s : order_is ord (Z.of_nat n) = true ->
  arr (tab ord n Ps Pt s) "P_scalar_approx" Ps /\ arr (tab ord n Ps Pt s) "P_tensor_approx" Pt.
Proof. intros E. unfold tab, arr, setattr. rewrite E. split; [rewrite get_set_neq by discriminate|]; rewrite get_set_eq; reflexivity. Qed.
Lemma tab_miss ord n Ps Pt s : order_is ord (Z.of_nat n) = false -> tab ord n Ps Pt s = s.
Proof. intros E. unfold tab. rewrite E. reflexivity. Qed.

Lemma cgs_order_exec {B} C S q o ord n suf s p (f : val * val -> M B) : powered s p ->
  bindM (cgs_order C S o ord n suf (p_H p) (pflows q p)) f s =
  let s1 := tab ord n (cgs_Ps C q p n) (cgs_Pt C q p n) s in
  match cgs_val C S q o p n with
  | Ok v => f v (setattr ("P_t_approx_" ++ suf) (snd v) (setattr ("P_s_approx_" ++ suf) (fst v) s1))
  | Raise e => (s1, Raise e)
  end.
Proof.
  intros HP. unfold cgs_order. cbv zeta. fold (cgs_Ps C q p n) (cgs_Pt C q p n). set (Ps := cgs_Ps C q p n). set (Pt := cgs_Pt C q p n).
  assert (HP1 : powered (tab ord n Ps Pt s) p).
  { eapply powered_frame; [exact HP|]. intros k I. apply tab_frame; intros ->; revert I; unfold pin_attrs; ni. }
  rewrite run_bind_bind.
  assert (EI : forall X : unit -> M B, bindM (if order_is ord (Z.of_nat n) then setP Ps Pt else retM tt) X s = X tt (tab ord n Ps Pt s)).
  { intros X. unfold tab. destruct (order_is ord (Z.of_nat n)); reflexivity. }
  rewrite EI. rewrite run_bind_bind. rewrite (run_get_logk _ (p_lk p)) by apply HP1. rewrite run_bind_bind, run_build2.
  fold (cgs_val C S q o p n). unfold cgs_val. fold Ps Pt. destruct (buildR S o (log_knots (p_lk p) Ps Pt)); reflexivity.
Qed.
Lemma arbds_order_exec {B} C S o ord n suf H e1 e2 e3 p s (f : val * val -> M B) :
  bindM (arbds_order C S o ord n suf H e1 e2 e3 (p_lk p)) f s =
  match buildR S o (log_knots (p_lk p) (arbds_Ps C p H e1 e2 e3 n) (arbds_Pt C p H e1 e2 e3 n)) with
  | Ok v => f v (setattr ("P_t_approx_" ++ suf) (snd v) (setattr ("P_s_approx_" ++ suf) (fst v) (tab ord n (arbds_Ps C p H e1 e2 e3 n) (arbds_Pt C p H e1 e2 e3 n) s)))
  | Raise e => (s, Raise e) end.
Proof.
  unfold arbds_order. cbv zeta. fold (arbds_Ps C p H e1 e2 e3 n) (arbds_Pt C p H e1 e2 e3 n). rewrite run_bind_bind, run_build2.
  destruct (buildR S o _) as [v|e]; [|reflexivity]. rewrite run_bind_bind. unfold tab. destruct (order_is ord (Z.of_nat n)); reflexivity.
Qed.

Definition has_table (s : attrs) (Ps Pt : list R) : Prop := arr s "P_scalar_approx" Ps /\ arr s "P_tensor_approx" Pt.
Lemma has_table_set s Ps Pt k v : has_table s Ps Pt -> k <> "P_scalar_approx" -> k <> "P_tensor_approx" -> has_table (setattr k v s) Ps Pt.
Proof. unfold has_table, arr, setattr. intros [A B] N1 N2. rewrite !get_set_neq by congruence. split; assumption. Qed.
Lemma powered_set s p k v : powered s p -> ~ In k pin_attrs -> powered (setattr k v s) p.
Proof. intros H N. eapply powered_frame; [exact H|]. intros k' I. unfold setattr. apply get_set_neq. intros ->. contradiction. Qed.
Lemma powered_tab s p ord n Ps Pt : powered s p -> powered (tab ord n Ps Pt s) p.
Proof. intros H. eapply powered_frame; [exact H|]. intros k I. apply tab_frame; intros ->; revert I; unfold pin_attrs; ni. Qed.

Lemma CGS_table C S q o n s p s' : powered s p -> (n <= 3)%nat -> derive_CGS C S q o (Some (Z.of_nat n)) s = (s', Ok tt) ->
  has_table s' (cgs_Ps C q p n) (cgs_Pt C q p n).
Proof.
  intros HP Hn E. unfold derive_CGS in E. rewrite (run_sample_flows q s p) in E by exact HP. cbn [fst snd sm_H] in E.
  rewrite cgs_order_exec in E by exact HP. destruct (cgs_val C S q o p 0) as [v0|]; [|discriminate]. cbv zeta in E.
  rewrite cgs_order_exec in E by (repeat first [apply powered_set; [|unfold pin_attrs; cbn [String.append]; ni]|apply powered_tab]; exact HP).
  destruct (cgs_val C S q o p 1) as [v1|]; [|discriminate]. cbv zeta in E.
  rewrite cgs_order_exec in E by (repeat first [apply powered_set; [|unfold pin_attrs; cbn [String.append]; ni]|apply powered_tab]; exact HP).
  destruct (cgs_val C S q o p 2) as [v2|]; [|discriminate]. cbv zeta in E.
  rewrite cgs_order_exec in E by (repeat first [apply powered_set; [|unfold pin_attrs; cbn [String.append]; ni]|apply powered_tab]; exact HP).
  destruct (cgs_val C S q o p 3) as [v3|]; [|discriminate]. cbv zeta in E. cbn [String.append] in E.
  assert (T : forall i s0 , i <> n -> tab (Some (Z.of_nat n)) i (cgs_Ps C q p i) (cgs_Pt C q p i) s0 = s0).
  { intros i s0 Hi. apply tab_miss. unfold order_is. apply Z.eqb_neq. lia. }
  assert (T' : forall s0, has_table (tab (Some (Z.of_nat n)) n (cgs_Ps C q p n) (cgs_Pt C q p n) s0) (cgs_Ps C q p n) (cgs_Pt C q p n)).
  { intros s0. apply tab_hit. unfold order_is. apply Z.eqb_refl. }
  destruct n as [|[|[|[|n]]]]; [| | | |lia]; cbn [order_is Z.of_nat Z.eqb Pos.eqb Pos.of_succ_nat Pos.succ] in E; unfold setspl in E;
    rewrite run_bind_setM in E; injection E as <-;
    repeat first [apply has_table_set; [|discriminate|discriminate] | apply T' | rewrite T by discriminate].
Qed.
Lemma ARBDS_table C S q o n s p s' : powered s p -> (1 <= n <= 3)%nat -> derive_ARBDS C S q o (Some (Z.of_nat n)) s = (s', Ok tt) ->
  exists H e1 e2 e3, cross4 q p = Ok (H, e1, e2, e3) /\ has_table s' (arbds_Ps C p H e1 e2 e3 n) (arbds_Pt C p H e1 e2 e3 n).
Proof.
  intros HP Hn E. unfold derive_ARBDS in E. rewrite (run_sample_flows q s p) in E by exact HP. cbn [fst snd sm_H sm_N] in E. unfold cross4.
  rewrite run_at_cross in E by apply HP. destruct (at_nc p (p_H p)) as [H|]; [|discriminate]. cbn [bind].
  rewrite run_at_cross in E by apply HP. destruct (at_nc p (map fe1 _)) as [e1|]; [|discriminate]. cbn [bind].
  rewrite run_at_cross in E by apply HP. destruct (at_nc p (map fe2 _)) as [e2|]; [|discriminate]. cbn [bind].
  rewrite run_at_cross in E by apply HP. destruct (at_nc p (map fe3 _)) as [e3|]; [|discriminate]. cbn [bind].
  exists H, e1, e2, e3. split; [reflexivity|].
  rewrite (run_get_logk s (p_lk p)) in E by apply HP.
  rewrite arbds_order_exec in E. destruct (buildR S o _) as [v1|]; [|discriminate].
  rewrite arbds_order_exec in E. destruct (buildR S o _) as [v2|]; [|discriminate].
  rewrite arbds_order_exec in E. destruct (buildR S o _) as [v3|]; [|discriminate]. cbn [String.append] in E.
  assert (T : forall i s0 , i <> n -> tab (Some (Z.of_nat n)) i (arbds_Ps C p H e1 e2 e3 i) (arbds_Pt C p H e1 e2 e3 i) s0 = s0).
  { intros i s0 Hi. apply tab_miss. unfold order_is. apply Z.eqb_neq. lia. }
  assert (T' : forall s0, has_table (tab (Some (Z.of_nat n)) n (arbds_Ps C p H e1 e2 e3 n) (arbds_Pt C p H e1 e2 e3 n) s0) (arbds_Ps C p H e1 e2 e3 n) (arbds_Pt C p H e1 e2 e3 n)).
  { intros s0. apply tab_hit. unfold order_is. apply Z.eqb_refl. }
  destruct n as [|[|[|[|n]]]]; [lia| | | |lia]; cbn [order_is Z.of_nat Z.eqb Pos.eqb Pos.of_succ_nat Pos.succ] in E; unfold setspl in E;
    rewrite run_bind_setM in E; injection E as <-;
    repeat first [apply has_table_set; [|discriminate|discriminate] | apply T' | rewrite T by discriminate].
Qed.
Lemma LLMS_table C S q o s p s' : powered s p -> derive_LLMS C S q o s = (s', Ok tt) ->
  exists H e1 e2 e3, cross4 q p = Ok (H, e1, e2, e3) /\ has_table s' (llms_Ps C p H e1 e2 e3) (llms_Pt C p H e1 e2).
Proof.
  intros HP E. unfold derive_LLMS in E. rewrite (run_sample_flows q s p) in E by exact HP. cbn [fst snd sm_H sm_N] in E. unfold cross4.
  rewrite run_at_cross in E by apply HP. destruct (at_nc p (p_H p)) as [H|]; [|discriminate]. cbn [bind].
  rewrite run_at_cross in E by apply HP. destruct (at_nc p (map fe1 _)) as [e1|]; [|discriminate]. cbn [bind].
  rewrite run_at_cross in E by apply HP. destruct (at_nc p (map fe2 _)) as [e2|]; [|discriminate]. cbn [bind].
  rewrite run_at_cross in E by apply HP. destruct (at_nc p (map fe3 _)) as [e3|]; [|discriminate]. cbn [bind].
  exists H, e1, e2, e3. split; [reflexivity|].
  rewrite (run_get_logk s (p_lk p)) in E by apply HP. cbv zeta in E.
  match type of E with context [build2 S o ?a ?b] => change (build2 S o a b) with (build2 S o (fst (a, b)) (snd (a, b))) in E end.
  rewrite run_build2 in E. destruct (buildR S o _) as [v|]; [|discriminate]. injection E as <-.
  do 2 (apply has_table_set; [|discriminate|discriminate]). unfold has_table, arr, setattr. split; [rewrite get_set_neq by discriminate|]; rewrite get_set_eq; reflexivity.
Qed.
Lemma STE_table C S q o s p s' : powered s p -> derive_STE C S q o s = (s', Ok tt) -> has_table s' (ste_Ps C q p) (ste_Pt C q p).
Proof.
  intros HP E. unfold derive_STE in E. rewrite (run_sample_flows q s p) in E by exact HP. cbn [fst snd sm_H sm_N] in E.
  rewrite (run_get_logk s (p_lk p)) in E by apply HP. cbv zeta in E. rewrite run_build2 in E. destruct (buildR S o _) as [v|]; [|discriminate]. injection E as <-.
  do 2 (apply has_table_set; [|discriminate|discriminate]). unfold has_table, arr, setattr. split; [rewrite get_set_neq by discriminate|]; rewrite get_set_eq; reflexivity.
Qed.

(** the knots of positive tables; log_knots of exponentials *)
Lemma log_knots_exp lk : forall A B, List.length A = List.length lk -> List.length B = List.length lk ->
  log_knots lk (map exp A) (map exp B) = (combine lk A, combine lk B).
Proof.
  induction lk as [|x lk IH]; intros [|a A] [|b B] HA HB; try discriminate; [reflexivity|]. cbn [map log_knots combine].
  injection HA as HA. injection HB as HB. rewrite (IH A B HA HB). pose proof (exp_pos a). pose proof (exp_pos b).
  destruct (Rlt_dec 0 (exp a)); [|contradiction]. destruct (Rlt_dec 0 (exp b)); [|contradiction]. rewrite !ln_exp. reflexivity.
Qed.
Lemma log_knots_in lk : forall Ps Pt i x P T, nth_error lk i = Some x -> nth_error Ps i = Some P -> nth_error Pt i = Some T -> 0 < P -> 0 < T ->
  In (x, ln P) (fst (log_knots lk Ps Pt)) /\ In (x, ln T) (snd (log_knots lk Ps Pt)).
Proof.
  induction lk as [|y lk IH]; intros [|a Ps] [|b Pt] [|i] x P T EX EP ET HP HT; try discriminate; cbn [nth_error log_knots] in *.
  - injection EX as ->. injection EP as ->. injection ET as ->. destruct (Rlt_dec 0 P); [|contradiction]. destruct (Rlt_dec 0 T); [|contradiction].
    cbn [fst snd]. split; left; reflexivity.
  - destruct (IH Ps Pt i x P T EX EP ET HP HT) as [I1 I2]. destruct (Rlt_dec 0 a); [destruct (Rlt_dec 0 b)|]; cbn [fst snd]; [split; right; assumption|split; assumption..].
Qed.
Lemma log_knots_sub lk : forall Ps Pt x, In x (map fst (fst (log_knots lk Ps Pt))) \/ In x (map fst (snd (log_knots lk Ps Pt))) -> In x lk.
Proof.
  induction lk as [|y lk IH]; intros [|a Ps] [|b Pt] x; cbn [log_knots]; try (cbn [fst snd map In]; tauto).
  destruct (Rlt_dec 0 a); [destruct (Rlt_dec 0 b)|]; cbn [fst snd map In]; intros H; try (right; apply (IH Ps Pt); exact H).
  destruct H as [[H|H]|[H|H]]; [left; exact H|right; apply (IH Ps Pt); tauto|left; exact H|right; apply (IH Ps Pt); tauto].
Qed.
Lemma log_knots_nodup lk : NoDup lk -> forall Ps Pt, NoDup (map fst (fst (log_knots lk Ps Pt))) /\ NoDup (map fst (snd (log_knots lk Ps Pt))).
Proof.
  induction 1 as [|y lk NI ND IH]; intros [|a Ps] [|b Pt]; cbn [log_knots]; try (cbn [fst snd map]; split; constructor).
  destruct (IH Ps Pt) as [I1 I2]. destruct (Rlt_dec 0 a); [destruct (Rlt_dec 0 b)|]; cbn [fst snd map]; try (split; assumption).
  split; constructor; try assumption; intros J; apply NI; apply (log_knots_sub lk Ps Pt); [left|right]; exact J.
Qed.

(** tables and splines of a successful derivation *)
Theorem table_run C S q me ord o s p s' u : powered s p -> (3 <= o_k o)%nat -> documented me ord ->
  derive_approx_power C S q me ord o s = (s', Ok u) ->
  exists Ps Pt, has_table s' Ps Pt /\ is_table C q me ord p Ps Pt /\
    let kn := log_knots (p_lk p) Ps Pt in
    spl_val C S q me ord o p = Ok (Some (VSpl (o_k o) (o_ext o) (fst kn), VSpl (o_k o) (o_ext o) (snd kn))) /\ has_params C S s' o kn.
Proof.
  intros HP H3 HD E. pose proof (derive_run C S q me ord o s p HP H3) as R. pose proof (documented_spl C S q me ord o p HD) as ND.
  destruct (spl_val C S q me ord o p) as [[v|]|e] eqn:ES; [|contradiction|rewrite E in R; discriminate].
  destruct R as (s1 & kn & E1 & Ev & HPa & _ & _). rewrite E in E1. injection E1 as <- ->.
  assert (FR : forall s1 Ps Pt, (exists u1, (if String.eqb me "CGS" then derive_CGS C S q o ord else if String.eqb me "LLMS" then derive_LLMS C S q o else if String.eqb me "STE" then derive_STE C S q o
        else if String.eqb me "ARBDS" then derive_ARBDS C S q o ord else retM tt) s = (s1, Ok u1)) -> has_table s1 Ps Pt -> has_table s' Ps Pt).
  { intros s1 Ps Pt (u1 & E1) HT. unfold derive_approx_power in E. unfold bindM at 1 in E. rewrite E1 in E.
    match type of E with ?m s1 = _ => assert (T : touches derived_attrs m) end.
    { unfold derived_attrs. touch. }
    specialize (T _ _ _ E). unfold has_table, arr in *. rewrite !T by (unfold derived_attrs; ni). exact HT. }
  assert (FIRST : exists s1 u1, (if String.eqb me "CGS" then derive_CGS C S q o ord else if String.eqb me "LLMS" then derive_LLMS C S q o else if String.eqb me "STE" then derive_STE C S q o
        else if String.eqb me "ARBDS" then derive_ARBDS C S q o ord else retM tt) s = (s1, Ok u1)).
  { unfold derive_approx_power in E. unfold bindM at 1 in E. match type of E with context [match ?t with (_, _) => _ end] => destruct t as [s1 [u1|e]] end; [eauto|discriminate]. }
  destruct FIRST as (s1 & [] & E1). specialize (FR s1). unfold spl_val in ES.
  destruct HD as [->|[->|[[-> (z & -> & Hz)]|[-> (z & -> & Hz)]]]]; cbn [String.eqb Ascii.eqb Bool.eqb] in *.
  - destruct (LLMS_table C S q o s p s1 HP E1) as (H & e1 & e2 & e3 & EC & HT). exists (llms_Ps C p H e1 e2 e3), (llms_Pt C p H e1 e2).
    split; [apply FR; eauto|]. split; [unfold is_table; split; [discriminate|split; [discriminate|split; [intros _; eauto 8|discriminate]]]|]. cbv zeta.
    unfold llms_val in ES. rewrite EC in ES. cbn [bind] in ES. destruct (buildR _ _ _) as [w|] eqn:EB; [|discriminate]. apply buildR_Ok in EB. cbn [bind] in ES. injection ES as <-. subst w.
    unfold llms_Ps, llms_Pt. rewrite log_knots_exp by (unfold LK; rewrite !map_length; reflexivity). injection Ev as Ev1 Ev2. split; [repeat f_equal; reflexivity|].
    cbn [fst snd] in *. unfold has_params in *. cbn [fst snd]. rewrite Ev1, Ev2. exact HPa.
  - pose proof (STE_table C S q o s p s1 HP E1) as HT. exists (ste_Ps C q p), (ste_Pt C q p).
    split; [apply FR; eauto|]. split; [unfold is_table; split; [discriminate|split; [auto|split; discriminate]]|]. cbv zeta.
    unfold ste_val in ES. fold (ste_Ps C q p) (ste_Pt C q p) in ES. destruct (buildR _ _ _) as [w|] eqn:EB; [|discriminate]. apply buildR_Ok in EB. cbn [bind] in ES. injection ES as <-. subst w.
    injection Ev as Ev1 Ev2. split; [reflexivity|]. unfold has_params in *. rewrite Ev1, Ev2. exact HPa.
  - assert (Ez : exists n, z = Z.of_nat n /\ (n <= 3)%nat) by (exists (Z.to_nat z); lia). destruct Ez as (n & -> & Hn).
    pose proof (CGS_table C S q o n s p s1 HP Hn E1) as HT. exists (cgs_Ps C q p n), (cgs_Pt C q p n).
    split; [apply FR; eauto|]. split; [unfold is_table; split; [intros _; eauto|split; [discriminate|split; discriminate]]|]. cbv zeta.
    destruct (vals4 _) as [[[[v0 v1] v2] v3]|] eqn:EV; [|discriminate]. apply vals4_inv in EV. destruct EV as (V0 & V1 & V2 & V3). cbn [bind] in ES. injection ES as ES.
    assert (EB : cgs_val C S q o p n = Ok v).
    { destruct n as [|[|[|[|n]]]]; [| | | |lia]; cbn [pick order_is Z.of_nat Z.eqb Pos.eqb Pos.of_succ_nat Pos.succ] in ES; injection ES as <-; assumption. }
    unfold cgs_val in EB. apply buildR_Ok in EB. rewrite EB. rewrite EB in Ev. injection Ev as Ev1 Ev2. split; [reflexivity|]. unfold has_params in *. rewrite Ev1, Ev2. exact HPa.
  - assert (Ez : exists n, z = Z.of_nat n /\ (1 <= n <= 3)%nat) by (exists (Z.to_nat z); lia). destruct Ez as (n & -> & Hn).
    destruct (ARBDS_table C S q o n s p s1 HP Hn E1) as (H & e1 & e2 & e3 & EC & HT). exists (arbds_Ps C p H e1 e2 e3 n), (arbds_Pt C p H e1 e2 e3 n).
    split; [apply FR; eauto|]. split; [unfold is_table; split; [discriminate|split; [discriminate|split; [discriminate|intros _; exists H, e1, e2, e3, n; auto]]]|]. cbv zeta.
    destruct (vals3 _) as [[[v1 v2] v3]|] eqn:EV; [|discriminate]. apply vals3_inv in EV. destruct EV as (V1 & V2 & V3). cbn [bind] in ES. injection ES as ES.
    assert (EB : arbds_val C S q o p n = Ok v).
    { destruct n as [|[|[|[|n]]]]; [lia| | | |lia]; cbn [pick3 order_is Z.of_nat Z.eqb Pos.eqb Pos.of_succ_nat Pos.succ] in ES; injection ES as <-; assumption. }
    unfold arbds_val in EB. rewrite EC in EB. cbn [bind] in EB. fold (arbds_Ps C p H e1 e2 e3 n) (arbds_Pt C p H e1 e2 e3 n) in EB.
    apply buildR_Ok in EB. rewrite EB. rewrite EB in Ev. injection Ev as Ev1 Ev2. split; [reflexivity|]. unfold has_params in *. rewrite Ev1, Ev2. exact HPa.
Qed.
