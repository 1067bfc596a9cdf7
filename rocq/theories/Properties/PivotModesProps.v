(** C130, continued: after an exact run in e-folds, k_iMpc lists the true comoving Hubble rate at the inflating samples,
    in inverse Mpc, in increasing order. *)
From Coq Require Import Reals List String Lra Lia Classical ZArith Bool Sorted.
From Coquelicot Require Import Coquelicot.
From Verif Require Import Base Model.Potentials Model.SlowRoll Model.Equations Model.Background Model.Float Model.Solution Model.InitCond Model.Events Model.Interp
  Model.State Model.ApproxPower Model.Calibrate
  Spec.PotentialSpec Spec.SlowRollSpec Spec.BackgroundSpec Spec.SolutionSpec Spec.ExactRun Spec.CalibSpec Proofs.StateLemmas Proofs.InterpInverse Proofs.Bracket Proofs.BackgroundT Proofs.BackgroundN Proofs.BackgroundTN
  Proofs.FloatLemmas Proofs.PostProc Proofs.ShootRun Proofs.RunReports Proofs.PivotExit Proofs.CalibPure Proofs.CalibPure2 Proofs.CalibPure3 Proofs.CalibRun Proofs.PowerRun Proofs.CalibResult
  Properties.UniqueProps Properties.CalibProps Properties.CalibProps5 Properties.PivotExitProps.
Import ListNotations.
Open Scope R_scope.
Open Scope string_scope.

Lemma first_occ_nodup l : forall m seen, NoDup l -> (forall x, In x l -> ~ In x seen) -> List.length m = List.length l ->
  zipw andb m (first_occ (map Fin seen) (map Fin l)) = m.
Proof.
  induction l as [|x l IH]; intros [|c m] seen ND NS L; try discriminate; [reflexivity|]. cbn [map first_occ zipw]. inversion ND as [|x' l' N1 N2]; subst.
  assert (EB : existsb (same_fl (Fin x)) (map Fin seen) = false).
  { apply not_true_is_false. intros Q. apply existsb_exists in Q. destruct Q as (f & Hf & SF). apply in_map_iff in Hf. destruct Hf as (u & <- & Hu).
    unfold same_fl in SF. cbn [feq isnan andb orb] in SF. destruct (Req_EM_T x u) as [->|]; [|discriminate SF]. exact (NS u (or_introl eq_refl) Hu). }
  rewrite EB, andb_true_r. f_equal. apply (IH m (x :: seen) N2); [|cbn in L; congruence]. intros z Hz [Q|Q]; [subst; contradiction|]. exact (NS z (or_intror Hz) Q).
Qed.
Lemma sorted_nodup l : StronglySorted Rlt l -> NoDup l.
Proof.
  intros SL. induction SL as [|x l SL IH FA]; constructor; [|exact IH]. intros Q. rewrite List.Forall_forall in FA. pose proof (FA x Q). lra.
Qed.
Lemma sorted_map (f : R -> R) l : StronglySorted Rlt l -> (forall u v, In u l -> In v l -> u < v -> f u < f v) -> StronglySorted Rlt (map f l).
Proof.
  intros SL. induction SL as [|x l SL IH FA]; intros HF; [constructor|]. cbn [map]. constructor.
  - apply IH. intros u v Hu Hv. apply HF; right; assumption.
  - apply List.Forall_forall. intros z Hz. apply in_map_iff in Hz. destruct Hz as (u & <- & Hu). rewrite List.Forall_forall in FA. apply HF; [left; reflexivity|right; exact Hu|apply FA, Hu].
Qed.
Lemma select_filter {A B} (f : A -> B) (g : A -> bool) l : select (map g l) (map f l) = map f (filter g l).
Proof. induction l as [|x l IH]; [reflexivity|]. cbn. destruct (g x); cbn; rewrite IH; reflexivity. Qed.

Lemma flat_a0 C a b o : pure_first C a 0 b = Ok o -> o_a0 o = 1.
Proof.
  intros E. apply pure_flat_inv in E. destruct E as [[_ E]|[_ E] ].
  - apply pure_N_star_inv in E. destruct E as (ns & _ & _ & _ & _ & _ & _ & _ & A0 & _). exact A0.
  - apply pure_flat_reh_inv in E. destruct E as (_ & dm & _ & _ & _ & _ & _ & _ & _ & _ & _ & A0 & _). exact A0.
Qed.
(** the samples strictly between start and end of inflation *)
Definition inside (N_beg N_end : R) (n : R) : bool := if Rlt_dec N_beg n then if Rlt_dec n N_end then true else false else false.

Theorem C130_wavenumbers : forall fmt_e verbose U tm te y a b N_i N_end x_end extra r ak C S ca s ws s' w,
  let q := N_eqs 0 U tm te in let ev := Inflation 1 false 0 None :: Inflation (-1) true 0 None :: extra in
  N_background 0 U tm te y a b -> a < N_i < N_end -> N_end < b -> N_end < x_end ->
  0 <= N_inflating 0 U tm te N_i (y N_i) -> (forall n, N_i < n < N_end -> 0 < N_inflating 0 U tm te n (y n)) ->
  falls_through (fun n => N_inflating 0 U tm te n (y n)) N_end ->
  NoDup (map (event_name fmt_e) ev) -> List.Forall (fun e => event_terminal e = false \/ exists v, v <= 0 /\ e = Collapse v) extra ->
  exact_run 0 U tm te N_i x_end (y N_i) ev r -> StronglySorted Rlt (r_t r) ->
  solve fmt_e q verbose ev r = Ok (s, ws) ->
  consts_ok C -> sane ca -> ca_background ca = None ->
  calibrate_scale_factor C S (mkaeqs ak 0 U) ca s = (s', Ok w) ->
  exists d ks, scal s' "delta_N_calib" d /\ arr s' "k_iMpc" ks /\
    ks = map (fun n => exp (n + d) * N_Hub 0 U tm te y n / lp_m C * Mpc_m C) (filter (inside N_i N_end) (r_t r)) /\ StronglySorted Rlt ks.
Proof.
  intros fmt_e verbose U tm te y a b N_i E x_end extra r ak C S ca s ws s' w q ev B A1 A2 XE I0 I1 F ND EX RUN SRT ES HC HA HB CAL.
  destruct (exact_background fmt_e verbose U tm te y a b N_i E x_end extra r s ws B A1 A2 XE I0 I1 F ND EX RUN SRT ES) as (BG & IV & ZN & ZH). fold q in BG, ZN, ZH, IV.
  destruct (run_record 0 U tm te y a b N_i E x_end B A1 A2 I1 F extra r XE EX RUN) as (_ & _ & HH & _ & HLt & _).
  assert (RNG : forall n, In n (r_t r) -> N_i <= n <= E) by (intros n Hn; rewrite <- HLt; apply (sorted_range _ N_i SRT HH n Hn)).
  destruct (C38_wavenumbers C S (mkaeqs ak 0 U) ca s _ s' w HC HA BG HB CAL) as (mask & ks & ki & cs & ls & M1 & K1 & _ & _ & L1 & _ & KS & KI).
  destruct (calibrate_result C S (mkaeqs ak 0 U) ca s _ s' w HC HA BG HB CAL) as (o & EP & P & _).
  pose proof (pure_scale C ca _ o _ HC EP) as (A0 & N0 & SC).
  rewrite (flat_a0 C ca _ o EP), Rmult_1_l in SC.
  destruct P as (((P1 & P2 & P3 & P4 & _) & BG' & _) & _). destruct BG' as (_ & _ & _ & _ & BM & _). cbn [remask b_mask] in BM.
  assert (ls = o_ls o) by (unfold scal in *; congruence). subst ls.
  assert (EMM : mask = umask (bg_of q r N_i (y N_i) E (y E))) by congruence. rewrite EMM in KI.
  set (lH := lnaH 0 U tm te y).
  assert (LG : logaH (bg_of q r N_i (y N_i) E (y E)) = map lH (r_t r)).
  { unfold logaH, bg_of. cbn [b_N b_H]. rewrite ZN, ZH. clear. induction (r_t r) as [|n l IH]; [reflexivity|]. cbn [map logaH_of]. f_equal. exact IH. }
  assert (INC : forall u v, N_i <= u -> u < v -> v <= E -> lH u < lH v).
  { intros u v H1 H2 H3. destruct (MVT_cor2 lH (fun n => N_inflating 0 U tm te n (y n) / (3 * (N_Hub 0 U tm te y n)^2)) u v H2) as (c & EQ & Hc).
    - intros c Hc. apply is_derive_Reals. apply (lnaH_der 0 U tm te y a b B). lra.
    - pose proof (lnaH_pos 0 U tm te y a b B N_i E A1 A2 I1 c ltac:(lra)) as PC. cbv beta in EQ. pose proof (Rmult_lt_0_compat _ (v - u) PC ltac:(lra)). lra. }
  assert (BMK : b_mask (bg_of q r N_i (y N_i) E (y E)) = map (inside N_i E) (r_t r)) by (unfold bg_of; cbn [b_mask]; rewrite ZN; reflexivity).
  assert (UM : umask (bg_of q r N_i (y N_i) E (y E)) = map (inside N_i E) (r_t r)).
  { unfold umask. rewrite LG, BMK. apply (first_occ_nodup (map lH (r_t r)) _ []).
    - apply sorted_nodup, sorted_map; [exact SRT|]. intros u v Hu Hv L. pose proof (RNG u Hu). pose proof (RNG v Hv). apply INC; lra.
    - intros x _ [].
    - rewrite !map_length. reflexivity. }
  assert (KV : ki = map (fun n => exp n * N_Hub 0 U tm te y n) (filter (inside N_i E) (r_t r))).
  { rewrite KI, UM. unfold bg_of. cbn [b_N b_H]. rewrite ZN, ZH, <- select_filter. f_equal. clear. induction (r_t r) as [|n l IH]; [reflexivity|]. cbn [map zipw]. f_equal. exact IH. }
  exists (o_dc o), ks. split; [exact P1|]. split; [exact K1|]. pose proof HC as (C1 & C2 & C3 & _). unfold K_STAR_lp in SC.
  assert (KE : ks = map (fun n => exp (n + o_dc o) * N_Hub 0 U tm te y n / lp_m C * Mpc_m C) (filter (inside N_i E) (r_t r))).
  { rewrite KS, KV, map_map. apply map_ext. intros n. rewrite exp_plus. rewrite exp_plus in SC.
    pose proof (exp_pos (o_ls o)) as X1. pose proof (exp_pos (o_dc o)) as X2.
    assert (NZ1 : Mpc_m C <> 0) by lra. assert (NZ2 : lp_m C <> 0) by lra. assert (NZ3 : exp (o_ls o) <> 0) by lra.
    assert (EK : K_STAR C = exp (o_dc o) * exp (o_ls o) * Mpc_m C / lp_m C) by (rewrite <- SC; field; split; assumption).
    rewrite EK. field. split; assumption. }
  split; [exact KE|]. rewrite KE. apply sorted_map; [apply sorted_filter; exact SRT|]. intros u v Hu Hv L. apply filter_In in Hu, Hv. destruct Hu as (Hu & _), Hv as (Hv & _).
  pose proof (RNG u Hu). pose proof (RNG v Hv).
  assert (EA : forall n, a < n < b -> exp (n + o_dc o) * N_Hub 0 U tm te y n = exp (lH n + o_dc o)).
  { intros n Hn. destruct (N_pos _ _ _ _ _ _ _ B n Hn) as (HP & _). unfold lH, lnaH. rewrite !exp_plus, exp_ln by exact HP. ring. }
  rewrite !EA by lra. apply Rmult_lt_compat_r; [lra|]. unfold Rdiv. apply Rmult_lt_compat_r; [apply Rinv_0_lt_compat; lra|]. apply exp_increasing. pose proof (INC u v ltac:(lra) L ltac:(lra)). lra.
Qed.

(** C130 for either flat calibration method (N_star given, or reheating): the reported N_star and the true horizon exit *)
Theorem C130_any_method : forall fmt_e verbose U tm te y a b N_i N_end x_end extra r ak C S ca s ws s' w,
  let q := N_eqs 0 U tm te in let ev := Inflation 1 false 0 None :: Inflation (-1) true 0 None :: extra in
  N_background 0 U tm te y a b -> a < N_i < N_end -> N_end < b -> N_end < x_end ->
  0 <= N_inflating 0 U tm te N_i (y N_i) -> (forall n, N_i < n < N_end -> 0 < N_inflating 0 U tm te n (y n)) ->
  falls_through (fun n => N_inflating 0 U tm te n (y n)) N_end ->
  NoDup (map (event_name fmt_e) ev) -> List.Forall (fun e => event_terminal e = false \/ exists v, v <= 0 /\ e = Collapse v) extra ->
  exact_run 0 U tm te N_i x_end (y N_i) ev r -> StronglySorted Rlt (r_t r) ->
  solve fmt_e q verbose ev r = Ok (s, ws) ->
  consts_ok C -> sane ca -> ca_background ca = None ->
  calibrate_scale_factor C S (mkaeqs ak 0 U) ca s = (s', Ok w) ->
  let aH d n := exp (n + d) * N_Hub 0 U tm te y n in let k_pivot := K_STAR C / Mpc_m C * lp_m C in
  exists d N_star n_l n_r n_exit,
    scal s' "delta_N_calib" d /\ scal s' "N_star" N_star /\
    In n_l (r_t r) /\ In n_r (r_t r) /\ N_i < n_l /\ n_r < N_end /\ (forall n, In n (r_t r) -> n <= n_l \/ n_r <= n) /\
    n_l <= N_end - N_star <= n_r /\ n_l <= n_exit <= n_r /\
    aH d n_exit = k_pivot /\ (forall n, N_i < n < n_exit -> aH d n < k_pivot) /\ (forall n, n_exit < n < N_end -> k_pivot < aH d n).
Proof.
  intros fmt_e verbose U tm te y a b N_i E x_end extra r ak C S ca s ws s' w q ev B A1 A2 XE I0 I1 F ND EX RUN SRT ES HC HA HB CAL aH kp.
  destruct (exact_background fmt_e verbose U tm te y a b N_i E x_end extra r s ws B A1 A2 XE I0 I1 F ND EX RUN SRT ES) as (BG & IV & ZN & ZH). fold q in BG, ZN, ZH, IV.
  set (lH := lnaH 0 U tm te y).
  destruct (calibrate_result C S (mkaeqs ak 0 U) ca s _ s' w HC HA BG HB CAL) as (o & EP & P & _).
  pose proof (pure_scale C ca _ o _ HC EP) as (A0 & N0 & SC). rewrite (flat_a0 C ca _ o EP), Rmult_1_l in SC. unfold K_STAR_lp in SC. fold kp in SC.
  destruct P as (((P1 & P2 & P3 & P4 & _) & _) & _). cbn [a_K] in EP.
  assert (LG : logaH (bg_of q r N_i (y N_i) E (y E)) = map lH (r_t r)).
  { unfold logaH, bg_of. cbn [b_N b_H]. rewrite ZN, ZH. clear. induction (r_t r) as [|n l IH]; [reflexivity|]. cbn [map logaH_of]. f_equal. exact IH. }
  set (us := filter (inside N_i E) (r_t r)). set (L := map (fun x => (x, lH x)) us).
  assert (MN : maskedN (bg_of q r N_i (y N_i) E (y E)) = us).
  { unfold maskedN, bg_of. cbn [b_N b_mask]. rewrite ZN. rewrite <- (map_id (r_t r)) at 2. change (fun n => if Rlt_dec (e_N q N_i (y N_i)) n then if Rlt_dec n (e_N q E (y E)) then true else false else false) with (inside N_i E).
    rewrite (select_filter (fun n => n) (inside N_i E)). apply map_id. }
  assert (ML : maskedL (bg_of q r N_i (y N_i) E (y E)) = map lH us).
  { unfold maskedL. rewrite LG. unfold bg_of. cbn [b_mask]. rewrite ZN. apply (select_filter lH (inside N_i E)). }
  assert (GT : forall n, inside N_i E n = true <-> N_i < n < E).
  { intros n. unfold inside. destruct (Rlt_dec N_i n), (Rlt_dec n E); split; intros; try discriminate; try reflexivity; lra. }
  assert (INC : forall u v, N_i < u -> u < v -> v < E -> lH u < lH v) by (intros u v; apply (lnaH_incr 0 U tm te y a b B N_i E A1 A2 I1)).
  assert (I2' : inc2 L).
  { apply sorted_inc2; [apply sorted_filter; exact SRT|]. intros u v Hu Hv LL. apply filter_In in Hu, Hv. destruct Hu as (_ & Hu), Hv as (_ & Hv). apply GT in Hu, Hv. apply INC; lra. }
  assert (BE : b_end (bg_of q r N_i (y N_i) E (y E)) = E) by reflexivity.
  assert (ADJ : exists u v, In u L /\ In v L /\ fst u <= E - o_ns o <= fst v /\ snd u <= o_ls o <= snd v /\ forall m, In m L -> fst m <= fst u \/ fst v <= fst m).
  { apply pure_flat_inv in EP. destruct EP as [[_ EP]|[_ EP] ].
    - apply pure_N_star_inv in EP. destruct EP as (ns & _ & _ & O1 & _ & EI & _). rewrite MN, ML, BE in EI. rewrite O1.
      apply (interp_adj L _ _ I2'). unfold L. replace (map (fun x => (x, lH x)) us) with (combine us (map lH us)); [exact EI|]. clear. induction us as [|x l IH]; [reflexivity|]. cbn. rewrite IH. reflexivity.
    - apply pure_flat_reh_inv in EP. destruct EP as (_ & dm & _ & _ & _ & _ & _ & EI & ON & _). rewrite MN, ML in EI. rewrite BE in ON.
      destruct (interp_adj (map swap L) (o_ls o) (o_nc o) (inc2_swap L I2')) as (u & v & U1 & U2 & U3 & U4 & U5).
      { unfold L. replace (map swap (map (fun x => (x, lH x)) us)) with (combine (map lH us) us); [exact EI|]. clear. induction us as [|x l IH]; [reflexivity|]. cbn. rewrite IH. reflexivity. }
      apply in_map_iff in U1, U2. destruct U1 as (u' & <- & U1), U2 as (v' & <- & U2). exists u', v'. cbn [swap fst snd] in U3, U4.
      split; [exact U1|]. split; [exact U2|]. split; [rewrite ON; lra|]. split; [exact U3|]. intros m Hm. pose proof (U5 (swap m) (in_map swap _ _ Hm)) as Q. cbn [swap fst] in Q.
      unfold L in U1, U2, Hm. apply in_map_iff in U1, U2, Hm. destruct U1 as (nu & <- & U1), U2 as (nv & <- & U2), Hm as (nm & <- & Hm). cbn [fst snd] in Q |- *.
      apply filter_In in U1, U2, Hm. destruct U1 as (_ & U1), U2 as (_ & U2), Hm as (_ & Hm). apply GT in U1, U2, Hm.
      destruct Q as [Q|Q]; [left; apply Rnot_lt_le; intros X; pose proof (INC nu nm ltac:(lra) X ltac:(lra)); lra|right; apply Rnot_lt_le; intros X; pose proof (INC nm nv ltac:(lra) X ltac:(lra)); lra]. }
  destruct ADJ as (u & v & U1 & U2 & U3 & U4 & U5). unfold L in U1, U2.
  apply in_map_iff in U1, U2. destruct U1 as (nl & <- & Hl), U2 as (nr & <- & Hr). cbn [fst snd] in U3, U4, U5. apply filter_In in Hl, Hr. destruct Hl as (Hl & Gl), Hr as (Hr & Gr). apply GT in Gl, Gr.
  destruct (lnaH_ivt 0 U tm te y a b B N_i E A1 A2 nl nr (o_ls o)) as (x & Hx & Ex); [lra|lra|lra|exact U4|].
  assert (EA : forall n, a < n < b -> aH (o_dc o) n = exp (lH n + o_dc o)).
  { intros n Hn. destruct (N_pos _ _ _ _ _ _ _ B n Hn) as (HP & _). unfold aH, lH, lnaH. rewrite !exp_plus, exp_ln by exact HP. ring. }
  assert (EK : kp = exp (lH x + o_dc o)) by (change (lH x) with (lnaH 0 U tm te y x); rewrite Ex, (Rplus_comm (o_ls o)); exact SC).
  exists (o_dc o), (o_ns o), nl, nr, x. split; [exact P1|]. split; [exact P4|]. split; [exact Hl|]. split; [exact Hr|]. split; [lra|]. split; [lra|].
  split.
  { intros n Hn. destruct (Rlt_dec N_i n) as [L1|L1]; [|left; lra]. destruct (Rlt_dec n E) as [L2|L2]; [|right; lra].
    apply (U5 (n, lH n)). apply in_map_iff. exists n. split; [reflexivity|]. apply filter_In. split; [exact Hn|apply GT; lra]. }
  split; [exact U3|]. split; [exact Hx|]. split; [rewrite EA, EK by lra; reflexivity|].
  split; intros n Hn; rewrite EA, EK by lra; apply exp_increasing, Rplus_lt_compat_r, INC; lra.
Qed.
