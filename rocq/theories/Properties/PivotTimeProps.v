(** C130 in cosmic time: the horizon exit of the pivot scale, and the wavenumbers, of an exact run in cosmic time. *)
From Coq Require Import Reals List String Lra Lia Classical ZArith Bool Sorted.
From Coquelicot Require Import Coquelicot.
From Verif Require Import Base Model.Potentials Model.SlowRoll Model.Equations Model.Background Model.Float Model.Solution Model.InitCond Model.Events Model.Interp
  Model.State Model.ApproxPower Model.Calibrate
  Spec.PotentialSpec Spec.SlowRollSpec Spec.BackgroundSpec Spec.SolutionSpec Spec.ExactRun Spec.ExactRunT Spec.CalibSpec Proofs.StateLemmas Proofs.InterpInverse Proofs.Bracket Proofs.BackgroundT Proofs.BackgroundN Proofs.BackgroundTN
  Proofs.FloatLemmas Proofs.PostProc Proofs.ShootRun Proofs.ShootRunT Proofs.RunReports Proofs.RunReportsT Proofs.PivotExit Proofs.CalibPure Proofs.CalibPure2 Proofs.CalibPure3 Proofs.CalibRun Proofs.PowerRun Proofs.CalibResult
  Properties.UniqueProps Properties.CalibProps Properties.CalibProps5 Properties.PivotExitProps Properties.PivotModesProps.
Import ListNotations.
Open Scope R_scope.
Open Scope string_scope.

(** in any universe: d/dt of N + ln H is inflating/(3H) *)
Theorem C130_time_comoving_hubble : forall K U te y a b t, T_background K U te y a b -> a < t < b ->
  is_derive (fun s => T_N te y s + ln (T_Hub K U te y s)) t (T_inflating U te t (y t) / (3 * T_Hub K U te y t)) /\ 0 < T_Hub K U te y t.
Proof.
  intros K U te y a b t B Ht. destruct (T_pos _ _ _ _ _ _ B t Ht) as (HP & HE). split; [|exact HP].
  pose proof (T_H_derive _ _ _ _ _ _ B t Ht) as D. destruct (T_comps _ _ _ _ _ _ B t Ht) as (_ & _ & DN & _).
  assert (HI : T_inflating U te t (y t) = pV U (T_phi te y t) - (T_dphi te y t)^2) by reflexivity.
  eapply is_derive_eq.
  - apply (@is_derive_plus R_AbsRing R_NormedModule (T_N te y)); [exact DN|].
    apply (is_derive_comp ln (T_Hub K U te y) t); [|exact D]. apply is_derive_Reals, derivable_pt_lim_ln. exact HP.
  - rewrite HI. unfold T_dH, T_get_dH. unfold T_get_H2 in HE. toR. unfold scal; cbn. unfold mult; cbn. unfold plus; cbn.
    set (h := T_Hub K U te y t) in *. set (p := T_dphi te y t) in *. set (v := pV U (T_phi te y t)) in *. set (k := K * exp (-2 * T_N te y t)) in *.
    replace v with (3 * (h * h) - p * p / 2 + 3 * k) by (rewrite HE; field). field. lra.
Qed.

Section Run.
Variables (fmt_e : R -> string) (verbose : bool) (U : potfun) (te : bool) (y : R -> list R) (a b t_i tE x_end : R) (extra : list event) (r : raw_sol) (s : attrs) (ws : list warning).
Let q := T_eqs 0 U te.
Let ev := Inflation 1 false 0 None :: Inflation (-1) true 0 None :: extra.
Hypotheses (B : T_background 0 U te y a b) (A1 : a < t_i < tE) (A2 : tE < b) (XE : tE < x_end)
  (I0 : 0 <= T_inflating U te t_i (y t_i)) (I1 : forall t, t_i < t < tE -> 0 < T_inflating U te t (y t))
  (F : falls_through (fun t => T_inflating U te t (y t)) tE) (ND : NoDup (map (event_name fmt_e) ev)) (EX : List.Forall only_recorded extra)
  (RUN : exact_run_time 0 U te t_i x_end (y t_i) ev r) (SRT : StronglySorted Rlt (r_t r)) (ES : solve fmt_e q verbose ev r = Ok (s, ws)).
Let g := fun t => T_N te y t.
Let lH := fun t => T_N te y t + ln (T_Hub 0 U te y t).

Lemma g_incr u v : t_i <= u -> u < v -> v <= tE -> g u < g v.
Proof.
  intros H1 H2 H3. destruct (MVT_cor2 g (T_Hub 0 U te y) u v H2) as (c & EQ & Hc).
  - intros c Hc. apply is_derive_Reals. apply (T_comps _ _ _ _ _ _ B c). lra.
  - destruct (T_pos _ _ _ _ _ _ B c ltac:(lra)) as (HP & _). pose proof (Rmult_lt_0_compat _ (v - u) HP ltac:(lra)). lra.
Qed.
Lemma lH_incr u v : t_i <= u -> u < v -> v <= tE -> lH u < lH v.
Proof.
  intros H1 H2 H3. destruct (MVT_cor2 lH (fun t => T_inflating U te t (y t) / (3 * T_Hub 0 U te y t)) u v H2) as (c & EQ & Hc).
  - intros c Hc. apply is_derive_Reals. apply (C130_time_comoving_hubble 0 U te y a b c B). lra.
  - destruct (T_pos _ _ _ _ _ _ B c ltac:(lra)) as (HP & _).
    assert (PC : 0 < T_inflating U te c (y c) / (3 * T_Hub 0 U te y c)) by (apply Rdiv_lt_0_compat; [apply I1; lra|lra]).
    cbv beta in EQ. pose proof (Rmult_lt_0_compat _ (v - u) PC ltac:(lra)). lra.
Qed.
Lemma lH_ivt n m v : t_i < n -> n <= m -> m < tE -> lH n <= v <= lH m -> exists x, n <= x <= m /\ lH x = v.
Proof.
  intros H1 H2 H3 H4. destruct (Req_dec (lH n) v) as [Q|Q]; [exists n; split; [lra|exact Q]|]. destruct (Req_dec (lH m) v) as [Q'|Q']; [exists m; split; [lra|exact Q']|].
  assert (n < m) by (destruct H2 as [H2| ->]; [exact H2|lra]).
  destruct (Ranalysis5.IVT_interv (fun s => lH s - v) n m) as (x & Hx & Ex); [|assumption|lra|lra|exists x; split; [exact Hx|lra] ].
  intros x Hx. apply derivable_continuous_pt. exists (T_inflating U te x (y x) / (3 * T_Hub 0 U te y x)). apply is_derive_Reals.
  eapply is_derive_eq; [apply (@is_derive_minus R_AbsRing R_NormedModule lH (fun _ => v)); [apply (C130_time_comoving_hubble 0 U te y a b x B); lra|apply (@is_derive_const R_AbsRing R_NormedModule)]|]. unfold minus, plus, opp, zero; cbn. ring.
Qed.

Lemma run_T : background s (bg_of q r t_i (y t_i) tE (y tE)) /\ (forall t, In t (r_t r) -> t_i <= t <= tE) /\
  zipw (e_N q) (r_t r) (r_y r) = map g (r_t r) /\ zipw (e_H2 q) (r_t r) (r_y r) = map (fun t => T_H2 0 U te t (y t)) (r_t r).
Proof.
  destruct (run_record_T 0 U te y a b t_i tE x_end B A1 A2 I1 F extra r XE EX RUN) as (IV & RC & HH & HY & HLt & RI & _).
  fold q ev in IV. change (start_end_events extra) with ev in *.
  assert (RNG : forall n, In n (r_t r) -> t_i <= n <= tE) by (intros n Hn; rewrite <- HLt; apply (sorted_range _ t_i SRT HH n Hn)).
  assert (RY : r_y r = map y (r_t r)).
  { destruct RUN as (z & a' & b' & T & Bz & A1' & A2' & Ez & HT & HH' & HLt' & RY & _). rewrite RY. apply map_ext_in. intros n Hn. pose proof (RNG n Hn).
    symmetry. apply (C110_time 0 U te y z a b a' b' t_i B Bz); try lra. symmetry; exact Ez. }
  destruct (solve_ok fmt_e q verbose ev r) as (s0 & ES0 & SO); [left; repeat eexists|exact ND|exact IV|]. rewrite ES in ES0. injection ES0 as <- _.
  assert (LT : List.length (r_t r) = List.length (r_y r)) by apply IV.
  assert (H2P : forall n, a < n < b -> 0 < T_H2 0 U te n (y n)) by (intros n Hn; apply (proj2 B n Hn)).
  assert (ZH : zipw (e_H2 q) (r_t r) (r_y r) = map (fun n => T_H2 0 U te n (y n)) (r_t r)).
  { rewrite RY. clear. induction (r_t r) as [|n l IH]; [reflexivity|]. cbn [map zipw]. f_equal. exact IH. }
  assert (ZN : zipw (e_N q) (r_t r) (r_y r) = map g (r_t r)).
  { rewrite RY. clear. induction (r_t r) as [|n l IH]; [reflexivity|]. cbn [map zipw]. f_equal. exact IH. }
  split; [|split; [exact RNG|split; [exact ZN|exact ZH] ] ].
  assert (Z : T_inflating U te tE (y tE) = 0) by (destruct F as (F0 & _); lra).
  assert (VP : 0 < pV U (T_phi te y tE)).
  { destruct (T_pos _ _ _ _ _ _ B tE ltac:(lra)) as (HP & HE). change (pV U (T_phi te y tE) - (T_dphi te y tE)^2 = 0) in Z. unfold T_get_H2 in HE.
    pose proof (Rmult_lt_0_compat _ _ HP HP). nra. }
  apply (solved_background q ev r s t_i (y t_i) tE (y tE) SO LT).
  - split; [exact RC|]. destruct (r_t r) as [|x0 xs]; [discriminate|]. destruct (r_y r) as [|y0 ys]; [discriminate|]. cbn in HH, HY. injection HH as ->. injection HY as ->.
    exists t_i, xs, (y t_i), ys. split; [reflexivity|]. split; [reflexivity|]. left. split; [left; exact I0|]. split; reflexivity.
  - exists []. left. exact RI.
  - rewrite ZH. apply List.Forall_forall. intros h Hh. apply in_map_iff in Hh. destruct Hh as (n & <- & Hn). pose proof (RNG n Hn). apply H2P. lra.
  - apply H2P. lra.
  - apply H2P. lra.
  - exact VP.
Qed.
End Run.

Lemma sorted_inc2' (g f : R -> R) l : StronglySorted Rlt l -> (forall u v, In u l -> In v l -> u < v -> g u < g v /\ f u < f v) -> inc2 (map (fun x => (g x, f x)) l).
Proof.
  intros SL. induction SL as [|x l SL IH FA]; intros HF; [exact I|]. destruct l as [|x' l]; [exact I|]. cbn [map inc2 fst snd].
  assert (L : x < x') by (inversion FA; assumption). destruct (HF x x' (or_introl eq_refl) (or_intror (or_introl eq_refl)) L) as (X1 & X2). split; [exact X1|]. split; [exact X2|].
  apply IH. intros u v Hu Hv. apply HF; right; assumption.
Qed.
Lemma combine_maps {A} (g f : A -> R) l : combine (map g l) (map f l) = map (fun x => (g x, f x)) l.
Proof. induction l as [|x l IH]; [reflexivity|]. cbn. rewrite IH. reflexivity. Qed.
Lemma map_ext_in' {A B} (f g : A -> B) l : (forall x, In x l -> f x = g x) -> map f l = map g l.
Proof. apply map_ext_in. Qed.

(** [d]: delta_N_calib; exp (N(t) + d) H(t) is the calibrated comoving Hubble rate. *)
Theorem C130_time : forall fmt_e verbose U te y a b t_i t_end x_end extra r ak C S ca s ws s' w,
  let q := T_eqs 0 U te in let ev := Inflation 1 false 0 None :: Inflation (-1) true 0 None :: extra in
  T_background 0 U te y a b -> a < t_i < t_end -> t_end < b -> t_end < x_end ->
  0 <= T_inflating U te t_i (y t_i) -> (forall t, t_i < t < t_end -> 0 < T_inflating U te t (y t)) ->
  falls_through (fun t => T_inflating U te t (y t)) t_end ->
  NoDup (map (event_name fmt_e) ev) -> List.Forall (fun e => event_terminal e = false \/ exists v, v <= 0 /\ e = Collapse v) extra ->
  exact_run_time 0 U te t_i x_end (y t_i) ev r -> StronglySorted Rlt (r_t r) ->
  solve fmt_e q verbose ev r = Ok (s, ws) ->
  consts_ok C -> sane ca -> ca_background ca = None ->
  calibrate_scale_factor C S (mkaeqs ak 0 U) ca s = (s', Ok w) ->
  let aH d t := exp (T_N te y t + d) * T_Hub 0 U te y t in let k_pivot := K_STAR C / Mpc_m C * lp_m C in
  exists d N_star t_l t_r t_exit ks,
    scal s' "delta_N_calib" d /\ scal s' "N_star" N_star /\ arr s' "k_iMpc" ks /\
    In t_l (r_t r) /\ In t_r (r_t r) /\ t_i < t_l /\ t_r < t_end /\ (forall t, In t (r_t r) -> t <= t_l \/ t_r <= t) /\
    T_N te y t_l <= T_N te y t_end - N_star <= T_N te y t_r /\ t_l <= t_exit <= t_r /\
    aH d t_exit = k_pivot /\ (forall t, t_i < t < t_exit -> aH d t < k_pivot) /\ (forall t, t_exit < t < t_end -> k_pivot < aH d t) /\
    ks = map (fun t => aH d t / lp_m C * Mpc_m C) (filter (inside t_i t_end) (r_t r)) /\ StronglySorted Rlt ks.
Proof.
  intros fmt_e verbose U te y a b t_i E x_end extra r ak C S ca s ws s' w q ev B A1 A2 XE I0 I1 F ND EX RUN SRT ES HC HA HB CAL aH kp.
  destruct (run_T fmt_e verbose U te y a b t_i E x_end extra r s ws B A1 A2 XE I0 I1 F ND EX RUN SRT ES) as (BG & RNG & ZN & ZH). fold q in BG, ZN, ZH.
  set (g := fun t => T_N te y t) in *. set (lH := fun t => T_N te y t + ln (T_Hub 0 U te y t)).
  assert (GI : forall u v, t_i <= u -> u < v -> v <= E -> g u < g v) by (intros u v; apply (g_incr U te y a b t_i E B A1 A2)).
  assert (INC : forall u v, t_i <= u -> u < v -> v <= E -> lH u < lH v) by (intros u v; apply (lH_incr U te y a b t_i E B A1 A2 I1)).
  destruct (C38_wavenumbers C S (mkaeqs ak 0 U) ca s _ s' w HC HA BG HB CAL) as (mask & ks & ki & cs & ls & M1 & K1 & _ & _ & L1 & _ & KS & KI).
  destruct (calibrate_result C S (mkaeqs ak 0 U) ca s _ s' w HC HA BG HB CAL) as (o & EP & P & _).
  pose proof (pure_scale C ca _ o _ HC EP) as (A0 & N0 & SC). rewrite (flat_a0 C ca _ o EP), Rmult_1_l in SC. unfold K_STAR_lp in SC. fold kp in SC.
  destruct P as (((P1 & P2 & P3 & P4 & _) & BG' & _) & _). cbn [a_K] in EP. destruct BG' as (_ & _ & _ & _ & BM & _). cbn [remask b_mask] in BM.
  assert (ls = o_ls o) by (unfold scal in *; congruence). subst ls.
  assert (EMM : mask = umask (bg_of q r t_i (y t_i) E (y E))) by congruence. rewrite EMM in KI.
  assert (LG : logaH (bg_of q r t_i (y t_i) E (y E)) = map lH (r_t r)).
  { unfold logaH, bg_of. cbn [b_N b_H]. rewrite ZN, ZH. clear. induction (r_t r) as [|n l IH]; [reflexivity|]. cbn [map logaH_of]. f_equal. exact IH. }
  assert (GT : forall n, inside t_i E n = true <-> t_i < n < E).
  { intros n. unfold inside. destruct (Rlt_dec t_i n), (Rlt_dec n E); split; intros; try discriminate; try reflexivity; lra. }
  assert (BMK : b_mask (bg_of q r t_i (y t_i) E (y E)) = map (inside t_i E) (r_t r)).
  { unfold bg_of. cbn [b_mask]. rewrite ZN, map_map. apply map_ext_in. intros t Ht. pose proof (RNG t Ht) as RT.
    change (e_N q t_i (y t_i)) with (g t_i). change (e_N q E (y E)) with (g E). unfold inside.
    destruct (Rlt_dec t_i t) as [L|L].
    - pose proof (GI t_i t ltac:(lra) L ltac:(lra)). destruct (Rlt_dec (g t_i) (g t)); [|contradiction]. destruct (Rlt_dec t E) as [L'|L'].
      + pose proof (GI t E ltac:(lra) L' ltac:(lra)). destruct (Rlt_dec (g t) (g E)); [reflexivity|contradiction].
      + replace t with E by lra. destruct (Rlt_dec (g E) (g E)); [lra|reflexivity].
    - replace t with t_i by lra. destruct (Rlt_dec (g t_i) (g t_i)); [lra|reflexivity]. }
  set (us := filter (inside t_i E) (r_t r)). set (L := map (fun x => (g x, lH x)) us).
  assert (US : forall t, In t us -> t_i < t < E) by (intros t Ht; apply filter_In in Ht; apply GT, Ht).
  assert (MN : maskedN (bg_of q r t_i (y t_i) E (y E)) = map g us).
  { unfold maskedN. rewrite BMK. unfold bg_of. cbn [b_N]. rewrite ZN. apply (select_filter g (inside t_i E)). }
  assert (ML : maskedL (bg_of q r t_i (y t_i) E (y E)) = map lH us).
  { unfold maskedL. rewrite LG, BMK. apply (select_filter lH (inside t_i E)). }
  assert (UM : umask (bg_of q r t_i (y t_i) E (y E)) = map (inside t_i E) (r_t r)).
  { unfold umask. rewrite LG, BMK. apply (first_occ_nodup (map lH (r_t r)) _ []).
    - apply sorted_nodup, sorted_map; [exact SRT|]. intros u v Hu Hv LL. pose proof (RNG u Hu). pose proof (RNG v Hv). apply INC; lra.
    - intros x _ [].
    - rewrite !map_length. reflexivity. }
  assert (I2' : inc2 L).
  { apply sorted_inc2'; [apply sorted_filter; exact SRT|]. intros u v Hu Hv LL. pose proof (US u Hu). pose proof (US v Hv). split; [apply GI|apply INC]; lra. }
  assert (BE : b_end (bg_of q r t_i (y t_i) E (y E)) = g E) by reflexivity.
  assert (ADJ : exists u v, In u us /\ In v us /\ g u <= g E - o_ns o <= g v /\ lH u <= o_ls o <= lH v /\ forall m, In m us -> m <= u \/ v <= m).
  { assert (AD : exists u v, In u L /\ In v L /\ fst u <= g E - o_ns o <= fst v /\ snd u <= o_ls o <= snd v /\ forall m, In m L -> (fst m <= fst u \/ fst v <= fst m) \/ (snd m <= snd u \/ snd v <= snd m)).
    { apply pure_flat_inv in EP. destruct EP as [[_ EP]|[_ EP] ].
      - apply pure_N_star_inv in EP. destruct EP as (ns & _ & _ & O1 & _ & EI & _). rewrite MN, ML, BE, combine_maps in EI. rewrite O1.
        destruct (interp_adj L _ _ I2' EI) as (u & v & U1 & U2 & U3 & U4 & U5). exists u, v. split; [exact U1|]. split; [exact U2|]. split; [exact U3|]. split; [exact U4|]. intros m Hm. left. apply U5, Hm.
      - apply pure_flat_reh_inv in EP. destruct EP as (_ & dm & _ & _ & _ & _ & _ & EI & ON & _). rewrite MN, ML, combine_maps in EI. rewrite BE in ON.
        destruct (interp_adj (map swap L) (o_ls o) (o_nc o) (inc2_swap L I2')) as (u & v & U1 & U2 & U3 & U4 & U5).
        { unfold L. rewrite map_map. exact EI. }
        apply in_map_iff in U1, U2. destruct U1 as (u' & <- & U1), U2 as (v' & <- & U2). exists u', v'. cbn [swap fst snd] in U3, U4.
        split; [exact U1|]. split; [exact U2|]. split; [rewrite ON; lra|]. split; [exact U3|]. intros m Hm. right. exact (U5 (swap m) (in_map swap _ _ Hm)). }
    destruct AD as (u & v & U1 & U2 & U3 & U4 & U5). unfold L in U1, U2. apply in_map_iff in U1, U2. destruct U1 as (nu & <- & U1), U2 as (nv & <- & U2). cbn [fst snd] in U3, U4, U5.
    exists nu, nv. split; [exact U1|]. split; [exact U2|]. split; [exact U3|]. split; [exact U4|]. intros m Hm. pose proof (US nu U1). pose proof (US nv U2). pose proof (US m Hm).
    assert (Im : In (g m, lH m) L) by (apply in_map_iff; exists m; split; [reflexivity|exact Hm]).
    destruct (U5 _ Im) as [ [Q|Q]|[Q|Q] ]; cbn [fst snd] in Q.
    - left. apply Rnot_lt_le. intros X. pose proof (GI nu m ltac:(lra) X ltac:(lra)). lra.
    - right. apply Rnot_lt_le. intros X. pose proof (GI m nv ltac:(lra) X ltac:(lra)). lra.
    - left. apply Rnot_lt_le. intros X. pose proof (INC nu m ltac:(lra) X ltac:(lra)). lra.
    - right. apply Rnot_lt_le. intros X. pose proof (INC m nv ltac:(lra) X ltac:(lra)). lra. }
  destruct ADJ as (nl & nr & Hl & Hr & U3 & U4 & U5). pose proof (US nl Hl) as Gl. pose proof (US nr Hr) as Gr.
  assert (LE : nl <= nr). { apply Rnot_lt_le. intros X. pose proof (INC nr nl ltac:(lra) X ltac:(lra)). lra. }
  destruct (lH_ivt U te y a b t_i E B A1 A2 nl nr (o_ls o)) as (x & Hx & Ex); [lra|exact LE|lra|exact U4|].
  assert (EA : forall n, a < n < b -> aH (o_dc o) n = exp (lH n + o_dc o)).
  { intros n Hn. destruct (T_pos _ _ _ _ _ _ B n Hn) as (HP & _). unfold aH, lH. cbv beta. rewrite !exp_plus, exp_ln by exact HP. unfold g. ring. }
  change (lH x = o_ls o) in Ex.
  assert (EK : kp = exp (lH x + o_dc o)) by (rewrite Ex, (Rplus_comm (o_ls o)); exact SC).
  assert (KV : ki = map (fun t => exp (T_N te y t) * T_Hub 0 U te y t) us).
  { rewrite KI, UM. unfold bg_of. cbn [b_N b_H]. rewrite ZN, ZH. unfold us. rewrite <- select_filter. f_equal. clear. induction (r_t r) as [|n l IH]; [reflexivity|]. cbn [map zipw]. f_equal. exact IH. }
  pose proof HC as (C1 & C2 & C3 & _).
  assert (KE : ks = map (fun t => aH (o_dc o) t / lp_m C * Mpc_m C) us).
  { rewrite KS, KV, map_map. apply map_ext. intros n. unfold aH. rewrite exp_plus. pose proof SC as SC'. unfold kp in SC'. rewrite exp_plus in SC'.
    pose proof (exp_pos (o_ls o)) as X1. pose proof (exp_pos (o_dc o)) as X2.
    assert (NZ1 : Mpc_m C <> 0) by lra. assert (NZ2 : lp_m C <> 0) by lra. assert (NZ3 : exp (o_ls o) <> 0) by lra.
    assert (EK' : K_STAR C = exp (o_dc o) * exp (o_ls o) * Mpc_m C / lp_m C) by (rewrite <- SC'; field; split; assumption).
    rewrite EK'. unfold g. field. split; assumption. }
  exists (o_dc o), (o_ns o), nl, nr, x, ks. split; [exact P1|]. split; [exact P4|]. split; [exact K1|].
  split; [apply filter_In in Hl; apply Hl|]. split; [apply filter_In in Hr; apply Hr|]. split; [lra|]. split; [lra|].
  split.
  { intros n Hn. destruct (Rlt_dec t_i n) as [L2|L2]; [|left; lra]. destruct (Rlt_dec n E) as [L3|L3]; [|right; lra].
    apply U5. apply filter_In. split; [exact Hn|apply GT; lra]. }
  split; [exact U3|]. split; [exact Hx|]. split; [rewrite EA, EK by lra; reflexivity|].
  split; [intros n Hn; rewrite EA, EK by lra; apply exp_increasing, Rplus_lt_compat_r, INC; lra|].
  split; [intros n Hn; rewrite EA, EK by lra; apply exp_increasing, Rplus_lt_compat_r, INC; lra|].
  split; [exact KE|]. rewrite KE. apply sorted_map; [apply sorted_filter; exact SRT|]. intros u v Hu Hv LL. pose proof (US u Hu). pose proof (US v Hv).
  rewrite !EA by lra. apply Rmult_lt_compat_r; [lra|]. unfold Rdiv. apply Rmult_lt_compat_r; [apply Rinv_0_lt_compat; lra|]. apply exp_increasing. pose proof (INC u v ltac:(lra) LL ltac:(lra)). lra.
Qed.
