(** C130: after an exact run in e-folds, calibrating with N_star puts the horizon exit of the pivot scale of the true
    background between the same two samples as N_star e-folds before the end of inflation. *)
From Coq Require Import Reals List String Lra Lia Classical ZArith Bool Sorted.
From Coquelicot Require Import Coquelicot.
From Verif Require Import Base Model.Potentials Model.SlowRoll Model.Equations Model.Background Model.Float Model.Solution Model.InitCond Model.Events Model.Interp
  Model.State Model.ApproxPower Model.Calibrate
  Spec.PotentialSpec Spec.SlowRollSpec Spec.BackgroundSpec Spec.SolutionSpec Spec.ExactRun Spec.CalibSpec Proofs.StateLemmas Proofs.InterpInverse Proofs.Bracket Proofs.BackgroundT Proofs.BackgroundN Proofs.BackgroundTN
  Proofs.FloatLemmas Proofs.PostProc Proofs.ShootRun Proofs.RunReports Proofs.PivotExit
  Properties.UniqueProps Properties.CalibProps Properties.CalibProps5.
Import ListNotations.
Open Scope R_scope.
Open Scope string_scope.

(** In any universe: n + ln H(n), the logarithm of the comoving Hubble rate, has the sign of the inflation indicator as
    the sign of its derivative: modes leave the horizon, in order of increasing wavenumber, exactly while it inflates. *)
Theorem C130_comoving_hubble : forall K U tm te y a b n, N_background K U tm te y a b -> a < n < b ->
  is_derive (fun s => s + ln (N_Hub K U tm te y s)) n (N_inflating K U tm te n (y n) / (3 * (N_Hub K U tm te y n)^2)) /\ 0 < N_Hub K U tm te y n.
Proof.
  intros K U tm te y a b n B Hn. split; [exact (lnaH_der K U tm te y a b B n Hn)|]. exact (proj1 (N_pos _ _ _ _ _ _ _ B n Hn)).
Qed.

(** what the solution object of an exact run holds *)
Lemma exact_background : forall fmt_e verbose U tm te y a b N_i E x_end extra r s ws,
  let q := N_eqs 0 U tm te in let ev := Inflation 1 false 0 None :: Inflation (-1) true 0 None :: extra in
  N_background 0 U tm te y a b -> a < N_i < E -> E < b -> E < x_end ->
  0 <= N_inflating 0 U tm te N_i (y N_i) -> (forall n, N_i < n < E -> 0 < N_inflating 0 U tm te n (y n)) ->
  falls_through (fun n => N_inflating 0 U tm te n (y n)) E ->
  NoDup (map (event_name fmt_e) ev) -> List.Forall only_recorded extra ->
  exact_run 0 U tm te N_i x_end (y N_i) ev r -> StronglySorted Rlt (r_t r) -> solve fmt_e q verbose ev r = Ok (s, ws) ->
  background s (bg_of q r N_i (y N_i) E (y E)) /\ ivp_ok (List.length (e_idx q)) (List.length ev) r /\
  zipw (e_N q) (r_t r) (r_y r) = r_t r /\ zipw (e_H2 q) (r_t r) (r_y r) = map (fun n => N_H2 0 U tm te n (y n)) (r_t r).
Proof.
  intros fmt_e verbose U tm te y a b N_i E x_end extra r s ws q ev B A1 A2 XE I0 I1 F ND EX RUN SRT ES.
  destruct (run_record 0 U tm te y a b N_i E x_end B A1 A2 I1 F extra r XE EX RUN) as (IV & RC & HH & HY & HLt & RI).
  fold q ev in IV. change (start_end_events extra) with ev in *.
  assert (RNG : forall n, In n (r_t r) -> N_i <= n <= E) by (intros n Hn; rewrite <- HLt; apply (sorted_range _ N_i SRT HH n Hn)).
  assert (RY : r_y r = map y (r_t r)).
  { destruct RUN as (z & a' & b' & T & Bz & A1' & A2' & Ez & HT & HH' & HLt' & RY & _). rewrite RY. apply map_ext_in. intros n Hn. pose proof (RNG n Hn).
    symmetry. apply (C110_efolds 0 U tm te y z a b a' b' N_i B Bz); try lra. symmetry; exact Ez. }
  destruct (solve_ok fmt_e q verbose ev r) as (s0 & ES0 & SO); [right; repeat eexists|exact ND|exact IV|]. rewrite ES in ES0. injection ES0 as <- _.
  assert (LT : List.length (r_t r) = List.length (r_y r)) by apply IV.
  assert (H2P : forall n, a < n < b -> 0 < N_H2 0 U tm te n (y n)) by (intros n Hn; apply (proj2 B n Hn)).
  assert (ZH : zipw (e_H2 q) (r_t r) (r_y r) = map (fun n => N_H2 0 U tm te n (y n)) (r_t r)).
  { rewrite RY. clear. induction (r_t r) as [|n l IH]; [reflexivity|]. cbn [map zipw]. f_equal. exact IH. }
  assert (ZN : zipw (e_N q) (r_t r) (r_y r) = r_t r) by (apply (zipw_fst (r_t r) (r_y r)); exact LT).
  assert (Z : N_inflating 0 U tm te E (y E) = 0) by (destruct F as (F0 & _); lra).
  assert (VP : 0 < pV U (N_phi tm te y E)).
  { pose proof (N_V _ _ _ _ _ _ _ B E ltac:(lra)) as HV. destruct (N_pos _ _ _ _ _ _ _ B E ltac:(lra)) as (HP & _).
    unfold N_inflating in Z. change (var (N_idx tm te) "phi" (y E)) with (N_phi tm te y E) in Z. change (var (N_idx tm te) "dphidN" (y E)) with (N_dphi tm te y E) in Z.
    replace (N_H2 0 U tm te E (y E)) with (N_Hub 0 U tm te y E ^ 2) in Z by (unfold N_Hub; simpl; rewrite Rmult_1_r; apply sqrt_sqrt; left; apply H2P; lra).
    pose proof (pow_lt _ 2 HP). nra. }
  pose proof (solved_background q ev r s N_i (y N_i) E (y E) SO LT) as SB.
  split; [|split; [exact IV|split; [exact ZN|exact ZH] ] ]. apply SB.
    - split; [exact RC|]. destruct (r_t r) as [|x0 xs]; [discriminate|]. destruct (r_y r) as [|y0 ys]; [discriminate|]. cbn in HH, HY. injection HH as ->. injection HY as ->.
      exists N_i, xs, (y N_i), ys. split; [reflexivity|]. split; [reflexivity|]. left. split; [unfold SolutionProps.inflates_at; left; exact I0|]. split; reflexivity.
    - exists []. left. exact RI.
    - rewrite ZH. apply List.Forall_forall. intros h Hh. apply in_map_iff in Hh. destruct Hh as (n & <- & Hn). pose proof (RNG n Hn). apply H2P. lra.
    - apply H2P. lra.
    - apply H2P. lra.
    - exact VP.
Qed.

(** [d]: delta_N_calib, the shift from the run's e-folds to ln of the calibrated scale factor; exp (n + d) H(n) is then
    the comoving Hubble rate aH at e-fold n. *)
Theorem C130_pivot_exit : forall fmt_e verbose U tm te y a b N_i N_end x_end extra r ak C S ca s ws s' w ns,
  let q := N_eqs 0 U tm te in let ev := Inflation 1 false 0 None :: Inflation (-1) true 0 None :: extra in
  N_background 0 U tm te y a b -> a < N_i < N_end -> N_end < b -> N_end < x_end ->
  0 <= N_inflating 0 U tm te N_i (y N_i) -> (forall n, N_i < n < N_end -> 0 < N_inflating 0 U tm te n (y n)) ->
  falls_through (fun n => N_inflating 0 U tm te n (y n)) N_end ->
  NoDup (map (event_name fmt_e) ev) -> List.Forall (fun e => event_terminal e = false \/ exists v, v <= 0 /\ e = Collapse v) extra ->
  exact_run 0 U tm te N_i x_end (y N_i) ev r -> StronglySorted Rlt (r_t r) ->
  solve fmt_e q verbose ev r = Ok (s, ws) ->
  consts_ok C -> sane ca -> ca_background ca = None -> method 0 ca = "N_star" -> ca_N_star ca = Some ns ->
  calibrate_scale_factor C S (mkaeqs ak 0 U) ca s = (s', Ok w) ->
  let aH d n := exp (n + d) * N_Hub 0 U tm te y n in let k_pivot := K_STAR C / Mpc_m C * lp_m C in
  exists d n_l n_r n_exit,
    scal s' "delta_N_calib" d /\ arr s' "N" (map (fun n => n + d) (r_t r)) /\ scal s' "N_end" (N_end + d) /\ scal s' "N_cross" (N_end - ns + d) /\
    In n_l (r_t r) /\ In n_r (r_t r) /\ N_i < n_l /\ n_r < N_end /\ (forall n, In n (r_t r) -> n <= n_l \/ n_r <= n) /\
    n_l <= N_end - ns <= n_r /\ n_l <= n_exit <= n_r /\
    aH d n_exit = k_pivot /\ (forall n, N_i < n < n_exit -> aH d n < k_pivot) /\ (forall n, n_exit < n < N_end -> k_pivot < aH d n).
Proof.
  intros fmt_e verbose U tm te y a b N_i E x_end extra r ak C S ca s ws s' w ns q ev B A1 A2 XE I0 I1 F ND EX RUN SRT ES HC HA HB HM ENS CAL aH kp.
  destruct (exact_background fmt_e verbose U tm te y a b N_i E x_end extra r s ws B A1 A2 XE I0 I1 F ND EX RUN SRT ES) as (BG & _ & ZN & ZH). fold q in BG, ZN, ZH.
  destruct (C36_pivot_crossing C S (mkaeqs ak 0 U) ca s _ s' w ns HC HA BG HB eq_refl HM ENS CAL) as (ls & d & _ & P2 & _ & _ & P5 & P6 & P7 & _ & P9 & P10).
  unfold bg_of, logaH in P5, P7, P9, P10. cbn [b_mask b_N b_H b_end] in P5, P7, P9, P10. rewrite ZN, ZH in P5. rewrite ZN in P7.
  change (e_N q N_i (y N_i)) with N_i in *. change (e_N q E (y E)) with E in *.
  set (lH := lnaH 0 U tm te y). set (g := fun n => if Rlt_dec N_i n then if Rlt_dec n E then true else false else false) in P5.
  assert (LG : logaH_of (r_t r) (map sqrt (map (fun n => N_H2 0 U tm te n (y n)) (r_t r))) = map lH (r_t r)).
  { clear. induction (r_t r) as [|n l IH]; [reflexivity|]. cbn [map logaH_of]. f_equal. exact IH. }
  rewrite LG, combine_select in P5.
  assert (GT : forall n, g n = true <-> N_i < n < E).
  { intros n. unfold g. destruct (Rlt_dec N_i n), (Rlt_dec n E); split; intros; try discriminate; try reflexivity; lra. }
  assert (INC : forall u v, N_i < u -> u < v -> v < E -> lH u < lH v) by (intros u v; apply (lnaH_incr 0 U tm te y a b B N_i E A1 A2 I1)).
  destruct (interp_adj (map (fun x => (x, lH x)) (filter g (r_t r))) (E - ns) ls) as (u & v & U1 & U2 & U3 & U4 & U5).
  { apply sorted_inc2; [apply sorted_filter; exact SRT|]. intros u v Hu Hv L. apply filter_In in Hu, Hv. destruct Hu as (_ & Hu), Hv as (_ & Hv). apply GT in Hu, Hv. apply INC; lra. }
  { exact P5. }
  apply in_map_iff in U1, U2. destruct U1 as (nl & <- & Hl), U2 as (nr & <- & Hr). cbn [fst snd] in U3, U4, U5. apply filter_In in Hl, Hr. destruct Hl as (Hl & Gl), Hr as (Hr & Gr). apply GT in Gl, Gr.
  destruct (lnaH_ivt 0 U tm te y a b B N_i E A1 A2 nl nr ls) as (x & Hx & Ex); [lra|lra|lra|exact U4|].
  assert (EA : forall n, a < n < b -> aH d n = exp (lH n + d)).
  { intros n Hn. destruct (N_pos _ _ _ _ _ _ _ B n Hn) as (HP & _). unfold aH, lH, lnaH. rewrite !exp_plus, exp_ln by exact HP. ring. }
  exists d, nl, nr, x. split; [exact P2|]. split; [exact P7|]. split; [exact P9|]. split; [exact P10|]. split; [exact Hl|]. split; [exact Hr|]. split; [lra|]. split; [lra|].
  split.
  { intros n Hn. destruct (Rlt_dec N_i n) as [L1|L1]; [|left; lra]. destruct (Rlt_dec n E) as [L2|L2]; [|right; lra].
    apply (U5 (n, lH n)). apply in_map_iff. exists n. split; [reflexivity|]. apply filter_In. split; [exact Hn|apply GT; lra]. }
  split; [exact U3|]. split; [exact Hx|]. split; [rewrite EA by lra; change (lH x) with (lnaH 0 U tm te y x); rewrite Ex; exact P6|].
  assert (EK : kp = exp (lH x + d)) by (change (lH x) with (lnaH 0 U tm te y x); rewrite Ex; symmetry; exact P6).
  split; intros n Hn; rewrite EA, EK by lra; apply exp_increasing, Rplus_lt_compat_r, INC; lra.
Qed.
