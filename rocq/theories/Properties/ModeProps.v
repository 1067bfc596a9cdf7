(** C89 (the power of one mode, end to end) and further parts of C58: solve_oscode. *)
From Coq Require Import Reals List String Bool Lra Lia.
From Coquelicot Require Import Coquelicot.
From Verif Require Import Base Model.Potentials Model.Equations Model.Background Model.Float Model.Perturbations Model.Oscode
  Spec.OscodeSpec Spec.PerturbationSpec Proofs.OscodeWin Proofs.OscodeLoop Proofs.PertComb Properties.PertProps Properties.OscodeProps.
Import ListNotations.
Open Scope R_scope.
Open Scope string_scope.

(* ------------------------------------------------------------------ *)
(** ** C58: defaults, physical wavenumbers, unknown vacua *)
Theorem C58_defaults : forall osc med b k drop fb fe vacuum y0,
  solve_oscode osc med b k None drop fb fe y0 false = solve_oscode osc med b k (Some ["RST"]) drop fb fe y0 false /\
  solve_oscode osc med b k vacuum drop fb fe None false = solve_oscode osc med b k vacuum drop fb fe (Some (ob_ic b)) false /\
  solve_oscode osc med b k vacuum drop fb fe y0 true = Raise AssertionError.
Proof. intros. split; [reflexivity|]. split; reflexivity. Qed.
(** k_iMpc measures the wavenumbers in units of the pivot scale: the mode that crosses the horizon at
    the pivot (k = exp(_logaH_star)) is 0.05 / Mpc, and the scaling is linear *)
Theorem C58_physical_wavenumbers : forall osc med b ks vs drop fb fe y0 S l,
  ob_logaH_star b = Some l ->
  solve_oscode osc med b (KArray ks) (Some vs) drop fb fe (Some y0) false = Ok (RetPPS S) ->
  List.length (ps_k_iMpc S) = List.length ks /\
  forall i k, nth_error ks i = Some k -> exists q, nth_error (ps_k_iMpc S) i = Some q /\ q / (5/100) = k / exp l.
Proof.
  intros osc med b ks vs drop fb fe y0 S l El E. unfold solve_oscode, init_pps in E. rewrite El in E. cbn [bind] in E.
  set (S0 := mkpps _ _ _ _) in E.
  pose proof (loop_spec (solve_mode osc med b vs drop fb fe y0) vs
     (fun k p H => conj (proj1 (proj2 (solve_mode_has osc med b vs drop fb fe y0 k p H))) (proj1 (proj2 (proj2 (solve_mode_has osc med b vs drop fb fe y0 k p H))))) (List.length ks) ks 0 S0 None) as L.
  assert (SZ : sized vs (List.length ks) S0).
  { split; intros v Hv; exists (map (fun _ : R => NaN) ks); (split; [apply (proj1 (init_arrays ks vs []) v Hv)|apply map_length]). }
  specialize (L SZ ltac:(lia)). destruct (k_loop _ vs 0 ks S0 None) as [[S' p']|e] eqn:EL; cbn [bind fst] in E; [|discriminate].
  injection E as <-. destruct L as (_ & _ & K2 & _). rewrite K2. cbn [ps_k_iMpc S0].
  split; [apply map_length|]. intros i k Hk. exists (k * K_STAR / exp l). split; [apply (map_nth_error (fun k => k * K_STAR / exp l)); exact Hk|].
  unfold K_STAR. field. apply Rgt_not_eq, exp_pos.
Qed.
(** a vacuum other than k, HD and RST makes every call with at least one wavenumber fail *)
Theorem C58_unknown_vacuum : forall osc med b k vs drop fb fe y0 vac,
  In vac vs -> ~ In vac ["k"; "HD"; "RST"] -> k <> KArray [] ->
  exists e, solve_oscode osc med b k (Some vs) drop fb fe (Some y0) false = Raise e.
Proof.
  intros osc med b k vs drop fb fe y0 vac Hin Hnot Hk.
  assert (F : forall k p, solve_mode osc med b vs drop fb fe y0 k <> Ok p).
  { intros q p E. unfold solve_mode in E.
    destruct (window _ _ _ _ _) as [w|e]; cbn [bind] in E; [|discriminate].
    destruct (if String.eqb (ob_indep b) "t" then Ok true else _) as [time|e]; cbn [bind] in E; [|discriminate].
    destruct (at_index (ob_x b) (fst w)) as [ti|e]; cbn [bind] in E; [|discriminate].
    destruct (at_index (ob_x b) (snd w)) as [tf|e]; cbn [bind] in E; [|discriminate].
    destruct (at_index (ob_s b) (fst w)) as [s0|e]; cbn [bind] in E; [|discriminate].
    repeat match type of E with context [at_index y0 ?n] => destruct (at_index y0 n); cbn [bind] in E; [|discriminate] end.
    match type of E with context [mode_powers ?a ?b ?c ?d ?f ?g] => destruct (mode_powers a b c d f g) as [Ps|e] eqn:EPs end; cbn [bind] in E; [|discriminate].
    destruct (mode_powers_get _ _ _ _ _ _ _ EPs vac Hin) as (P & Q & _). revert Q. unfold vac_power, vacuum_ic.
    destruct (String.eqb_spec vac "k"); [subst; exfalso; apply Hnot; simpl; tauto|].
    destruct (String.eqb_spec vac "HD"); [subst; exfalso; apply Hnot; simpl; tauto|].
    destruct (String.eqb_spec vac "RST"); [subst; exfalso; apply Hnot; simpl; tauto|]. discriminate. }
  destruct k as [q|ks].
  - rewrite scalar_call. destruct (ob_logaH_star b); [|eexists; reflexivity].
    destruct (solve_mode osc med b vs drop fb fe y0 q) as [p|e] eqn:E; [exfalso; exact (F _ _ E)|eexists; reflexivity].
  - destruct ks as [|q ks]; [congruence|].
    unfold solve_oscode. destruct (init_pps b (q :: ks) vs) as [S|e]; [|eexists; reflexivity]. cbn [bind k_loop].
    destruct (solve_mode osc med b vs drop fb fe y0 q) as [p|e] eqn:E; [exfalso; exact (F _ _ E)|eexists; reflexivity].
Qed.
Theorem C58_unknown_nonvacuous : In "BD" ["RST"; "BD"] /\ ~ In "BD" ["k"; "HD"; "RST"] /\ KScalar 1 <> KArray [].
Proof. split; [simpl; tauto|]. split; [simpl; intuition discriminate|discriminate]. Qed.

(* ------------------------------------------------------------------ *)
(** ** C89: the power of one mode *)

(** the vacuum states of the four mode classes *)
Definition vacuum_state (time tensor : bool) (K k : R) (U : potfun) (vac : string) (s : sample) (u : C * C) : Prop :=
  match time, tensor with
  | true, false => (vac = "k" /\ u = Ts_vac_k K k U s) \/ (vac = "HD" /\ u = Ts_vac_HD K k U s) \/ (vac = "RST" /\ u = Ts_vac_RST k s)
  | true, true => (vac = "k" /\ u = Tt_vac_k k s) \/ (vac = "HD" /\ u = Tt_vac_HD K k s) \/ (vac = "RST" /\ u = Tt_vac_RST k s)
  | false, false => (vac = "k" /\ u = Ns_vac_k K k U s) \/ (vac = "HD" /\ u = Ns_vac_HD K k U s) \/ (vac = "RST" /\ u = Ns_vac_RST k s)
  | false, true => (vac = "k" /\ u = Nt_vac_k k s) \/ (vac = "HD" /\ u = Nt_vac_HD K k s) \/ (vac = "RST" /\ u = Nt_vac_RST k s)
  end.
(** squared frequency and damping of the four mode classes at a sample *)
Definition freq2 (time tensor : bool) (K k : R) (U : potfun) (s : sample) : R :=
  match time, tensor with
  | true, false => Ts_frequency2 K k U s | true, true => Tt_frequency2 K k s
  | false, false => Ns_frequency2 K k U s | false, true => Nt_frequency2 K k s end.
Definition damp (time tensor : bool) (K k : R) (U : potfun) (s : sample) : R :=
  match time, tensor with
  | true, false => Ts_damping K k U s | true, true => Tt_damping s
  | false, false => Ns_damping K k U s | false, true => Nt_damping K s end.

(** [osc] propagates every initial value (x0, dx0) at the first of the points [xs], with frequencies
    whose squares are [f2] and dampings [g], linearly to the frozen value [ue x0 + ve dx0] *)
Definition integrates (osc : list R -> R -> R -> list C -> list R -> R -> R -> list C * list C)
    (xs : list R) (xi xj : R) (f2 g : list R) (ue ve : C) : Prop :=
  forall ws, map (fun w => Cmult w w) ws = map RtoC f2 -> forall x0 dx0 : R,
  exists P D, propagates P D ue ve /\ osc xs xi xj ws g x0 dx0 = (run (RtoC x0) (RtoC dx0) P, run (RtoC x0) (RtoC dx0) D).

(** C89: with an integrator that propagates linearly over the samples i..j of the window, the power
    reported for every requested vacuum is k^3/(2 pi^2) |u_end|^2 for scalar modes and k^3/pi^2
    |u_end|^2 for tensor modes, where u_end is the solution starting at sample i with the vacuum's
    value and derivative - whatever pair of real starting solutions was used. *)
Theorem C89_mode_power :
  forall osc med b k vs drop fac_beg fac_end x1 d1 x2 d2 p time i j xi xj s0 xs ss ues ves uet vet vac us ut,
  solve_oscode osc med b (KScalar k) (Some vs) drop fac_beg fac_end (Some [x1; d1; x2; d2]) false = Ok (RetMode (Some p)) ->
  window (ob_logaH b) (map s_N (ob_s b)) k fac_beg fac_end = Ok (i, j) -> (i <= j)%nat ->
  ob_indep b = (if time : bool then "t" else "_N") ->
  nth_error (ob_x b) i = Some xi -> nth_error (ob_x b) j = Some xj -> nth_error (ob_s b) i = Some s0 ->
  (j < List.length (ob_s b))%nat -> is_range xs (ob_x b) i j -> is_range ss (ob_s b) i j ->
  x1 * d2 - d1 * x2 <> 0 -> median_of_equal med ->
  integrates osc xs xi xj (map (freq2 time false (ob_K b) k (ob_U b)) ss) (map (damp time false (ob_K b) k (ob_U b)) ss) ues ves ->
  integrates osc xs xi xj (map (freq2 time true (ob_K b) k (ob_U b)) ss) (map (damp time true (ob_K b) k (ob_U b)) ss) uet vet ->
  In vac vs -> vacuum_state time false (ob_K b) k (ob_U b) vac s0 us -> vacuum_state time true (ob_K b) k (ob_U b) vac s0 ut ->
  (~ (vac = "RST" /\ k < 1 /\ ob_K b = 1 /\ drop = true) ->
     dget vac (pP_s p) = Ok (Cmod (ues * fst us + ves * snd us)%C ^ 2 * (k^3 / (2 * PI^2)))) /\
  dget vac (pP_t p) = Ok (Cmod (uet * fst ut + vet * snd ut)%C ^ 2 * (k^3 / PI^2)).
Proof.
  intros osc med b k vs drop fb fe x1 d1 x2 d2 p time i j xi xj s0 xs ss ues ves uet vet vac us ut
    E W IJ EI Exi Exj Es0 Lj Rx Rs WR M IS IT Hin Vs Vt.
  rewrite scalar_call in E. destruct (ob_logaH_star b); [|discriminate].
  destruct (solve_mode osc med b vs drop fb fe [x1; d1; x2; d2] k) as [q|e] eqn:EM; [|discriminate]. injection E as ->.
  unfold solve_mode in EM. rewrite W in EM. cbn [bind fst snd] in EM. rewrite EI in EM.
  assert (ET : (if String.eqb (if time then "t" else "_N") "t" then Ok true
     else if String.eqb (if time then "t" else "_N") "_N" then Ok false else Raise NotImplementedError) = Ok time) by (destruct time; reflexivity).
  rewrite ET in EM. cbn [bind] in EM.
  assert (Lx : (j < List.length (ob_x b))%nat) by (apply nth_error_Some; congruence).
  rewrite <- (range_eq _ _ _ _ _ Rx (slice_range i j (ob_x b) IJ Lx)) in EM.
  rewrite <- (range_eq _ _ _ _ _ Rs (slice_range i j (ob_s b) IJ Lj)) in EM.
  unfold at_index in EM at 1 2 3. rewrite Exi in EM. cbn [bind] in EM. rewrite Exj in EM. cbn [bind] in EM. rewrite Es0 in EM. cbn [bind] in EM.
  cbn [at_index nth_error Nat.mul Nat.add bind] in EM.
  unfold mode_coeffs in EM. cbn [fst snd] in EM.
  match type of EM with context [mode_powers ?a ?b ?c ?d ?f ?g] => destruct (mode_powers a b c d f g) as [Ps|e] eqn:EPs end; cbn [bind] in EM; [|discriminate].
  match type of EM with context [mode_powers ?a ?b ?c ?d ?f ?g] => destruct (mode_powers a b c d f g) as [Pt|e] eqn:EPt end; cbn [bind] in EM; [|discriminate].
  injection EM as <-. cbn [pP_s pP_t].
  destruct (mode_powers_get _ _ _ _ _ _ _ EPs vac Hin) as (A & QA & GA).
  destruct (mode_powers_get _ _ _ _ _ _ _ EPt vac Hin) as (B & QB & GB).
  assert (WC : (RtoC x1 * RtoC d2 - RtoC d1 * RtoC x2 <> 0)%C).
  { intros X. apply (f_equal fst) in X. cbn in X. apply WR. lra. }
  assert (FS : forall tensor : bool, (if time then if tensor then Tt_frequency2 (ob_K b) k else Ts_frequency2 (ob_K b) k (ob_U b)
            else if tensor then Nt_frequency2 (ob_K b) k else Ns_frequency2 (ob_K b) k (ob_U b)) = freq2 time tensor (ob_K b) k (ob_U b)) by (intros; destruct time, tensor; reflexivity).
  assert (DS : forall tensor : bool, (if time then if tensor then Tt_damping else Ts_damping (ob_K b) k (ob_U b)
            else if tensor then Nt_damping (ob_K b) else Ns_damping (ob_K b) k (ob_U b)) = damp time tensor (ob_K b) k (ob_U b)) by (intros; destruct time, tensor; reflexivity).
  assert (VI : forall tensor u, vacuum_state time tensor (ob_K b) k (ob_U b) vac s0 u -> vacuum_ic time tensor (ob_K b) k (ob_U b) vac s0 = Ok u).
  { intros tensor u. unfold vacuum_state, vacuum_ic. destruct time, tensor; intros [[-> ->]|[[-> ->]|[-> ->]]]; reflexivity. }
  unfold vac_power in QA, QB. rewrite (VI false us Vs) in QA. rewrite (VI true ut Vt) in QB. cbn [bind] in QA, QB.
  specialize (FS false) as FSs. specialize (FS true) as FSt. specialize (DS false) as DSs. specialize (DS true) as DSt. cbv iota in FSs, FSt, DSs, DSt.
  rewrite FSs, DSs in QA. rewrite FSt, DSt in QB.
  destruct (IS _ (ms_frequency_sq _) x1 d1) as (P1 & D1 & PR1 & O1). destruct (IS _ (ms_frequency_sq _) x2 d2) as (P2 & D2 & PR2 & O2).
  destruct (IT _ (ms_frequency_sq _) x1 d1) as (P3 & D3 & PR3 & O3). destruct (IT _ (ms_frequency_sq _) x2 d2) as (P4 & D4 & PR4 & O4).
  rewrite O1, O2 in QA. rewrite O3, O4 in QB. cbn [fst snd] in QA, QB. destruct us as [u du], ut as [v dv]. cbn [fst snd].
  rewrite (C78_spectrum_independent_of_start med _ u du ues ves P1 D1 P2 D2 _ _ _ _ M PR1 PR2 WC) in QA.
  rewrite (C78_spectrum_independent_of_start med _ v dv uet vet P3 D3 P4 D4 _ _ _ _ M PR3 PR4 WC) in QB.
  injection QA as <-. injection QB as <-. split.
  - intros NS. unfold scalar_pps_norm in *.
    destruct (rltb k 1 && (if Req_EM_T (ob_K b) 1 then true else false) && drop)%bool eqn:SU; [|exact GA].
    rewrite dget_dset. destruct (String.eqb_spec vac "RST") as [->|N]; [|exact GA]. exfalso. apply NS.
    apply andb_true_iff in SU. destruct SU as [SU ->]. apply andb_true_iff in SU. destruct SU as [S1 S2].
    apply rltb_true in S1. destruct (Req_EM_T (ob_K b) 1) as [S3|]; [|discriminate]. auto.
  - rewrite GB. f_equal. f_equal. unfold tensor_pps_norm. field. apply PI_neq0.
Qed.

(** the dense output (num_eval > 0): the power at every output point is that of the solution with the
    vacuum's initial value and derivative *)
Theorem C89_dense_output : forall norm (uk duk y1 dy1 y2 dy2 : C) (Y : list (C * C)) (x1 d1 x2 d2 : C),
  (x1 * d2 - d1 * x2 <> 0)%C -> (y1, dy1) = (x1, d1) -> (y2, dy2) = (x2, d2) ->
  combine_eval norm (coefficients_a_b uk duk y1 dy1 y2 dy2) (run x1 d1 Y) (run x2 d2 Y)
  = map (fun m => Cmod (fst m * uk + snd m * duk)%C ^ 2 * norm) Y.
Proof.
  intros norm uk duk y1 dy1 y2 dy2 Y x1 d1 x2 d2 W E1 E2. injection E1 as -> ->. injection E2 as -> ->.
  destruct (C51_coefficients_match uk duk x1 d1 x2 d2 W) as [A [B _]].
  set (ab := coefficients_a_b uk duk x1 d1 x2 d2) in *. clearbody ab. unfold combine_eval, run.
  induction Y as [|m Y IH]; [reflexivity|]. cbn [map List.combine]. rewrite IH. f_equal. cbn [fst snd].
  assert (X : (fst ab * (fst m * x1 + snd m * d1) + snd ab * (fst m * x2 + snd m * d2) = fst m * uk + snd m * duk)%C).
  { rewrite <- A, <- B. ring. }
  rewrite X. reflexivity.
Qed.

(** the example run of C58 meets the hypotheses *)
Theorem C89_nonvacuous : exists p ss us ut,
  solve_oscode osc_const med_hd bg_ex (KScalar (1/2)) (Some ["k"]) true 0 100 (Some [1; 0; 0; 1]) false = Ok (RetMode (Some p)) /\
  is_range [0; 5; 11] (ob_x bg_ex) 0 2 /\ is_range ss (ob_s bg_ex) 0 2 /\ median_of_equal med_hd /\
  integrates osc_const [0; 5; 11] 0 11 (map (freq2 false false 1 (1/2) (ob_U bg_ex)) ss) (map (damp false false 1 (1/2) (ob_U bg_ex)) ss) (RtoC 1) (RtoC 0) /\
  integrates osc_const [0; 5; 11] 0 11 (map (freq2 false true 1 (1/2) (ob_U bg_ex)) ss) (map (damp false true 1 (1/2) (ob_U bg_ex)) ss) (RtoC 1) (RtoC 0) /\
  vacuum_state false false 1 (1/2) (ob_U bg_ex) "k" (mksample 0 1 0 1 1 0) us /\
  vacuum_state false true 1 (1/2) (ob_U bg_ex) "k" (mksample 0 1 0 1 1 0) ut.
Proof.
  destruct bg_ex_run as (p & E & _). exists p, (ob_s bg_ex), (Ns_vac_k 1 (1/2) (ob_U bg_ex) (mksample 0 1 0 1 1 0)), (Nt_vac_k (1/2) (mksample 0 1 0 1 1 0)).
  split; [exact E|]. split; [split; [reflexivity|intros; reflexivity]|]. split; [split; [reflexivity|intros; reflexivity]|].
  split; [intros c l NE A; destruct l; [congruence|]; apply A; left; reflexivity|].
  assert (I : forall f g, integrates osc_const [0; 5; 11] 0 11 f g (RtoC 1) (RtoC 0)).
  { intros f g ws _ x0 dx0. exists [(RtoC 1, RtoC 0)], [(RtoC 0, RtoC 1)]. split.
    - split; [do 2 eexists; split; reflexivity|]. intros m [<-|[]]. reflexivity.
    - unfold osc_const, run. cbn [map fst snd]. f_equal; f_equal; ring. }
  split; [apply I|]. split; [apply I|]. split; left; split; reflexivity.
Qed.
