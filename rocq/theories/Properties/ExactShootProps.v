(** C127: with an exact integrator ISIC_Nt (flat universe, e-folds) finds the start of an inflation of the wanted length. *)
From Coq Require Import Reals List String Lra Lia Classical ZArith.
From Coquelicot Require Import Coquelicot.
From Verif Require Import Base Model.Potentials Model.SlowRoll Model.Equations Model.Background Model.Float Model.Solution Model.InitCond Model.Events
  Spec.PotentialSpec Spec.SlowRollSpec Spec.BackgroundSpec Spec.SolutionSpec Spec.ExactRun Proofs.PhiEnd Proofs.SRN Proofs.Bracket Proofs.BackgroundT Proofs.BackgroundN Proofs.BackgroundEx Proofs.FloatLemmas Proofs.Unique
  Proofs.SolLemmas Proofs.PostProc Proofs.SlowRollBound Proofs.Roll Proofs.RollEnd Proofs.FastRoll Proofs.StartCont Proofs.StartMono Proofs.ShootRun Properties.BackgroundProps Properties.InitProps Properties.UniqueProps Properties.BracketProps Properties.EndNonvacuity
  Properties.StartEndsProps Properties.StartEndsNonvacuity Properties.StartContProps.
Import ListNotations.
Open Scope R_scope.
Open Scope string_scope.

(** the integrator makes no error on the run the search starts from the field phi *)
Definition exact_from (ivp : integrator) (U : potfun) (tm te : bool) (t_i eta_i : option R) (x_end N_i N_wanted phi : R) : Prop :=
  forall ic ic' y1, is_init (IN 0 U tm te) phi t_i eta_i x_end (kw_of (InN N_i)) = Ok ic ->
    is_call ic (repeat (Fin 0) (List.length (N_idx tm te))) = Ok (ic', map Fin y1) ->
    exact_run 0 U tm te N_i x_end y1 (shoot_events (N_i + N_wanted + 10)) (fst (ivp (IN 0 U tm te) N_i x_end y1 (shoot_events (N_i + N_wanted + 10)))).
(** a bracketing root finder with absolute tolerance tol: told the ends of a bracket between which the function changes
    sign exactly once, from negative to positive, it returns a point of the bracket at most tol from the zero *)
Definition brackets_to (tol : R) (find : ieqs -> rootfinder) : Prop :=
  forall q f lo hi x, lo < x < hi -> (forall s, lo <= s < x -> exists v, f s = Ok (Fin v) /\ v < 0) -> f x = Ok (Fin 0) ->
    (forall s, x < s <= hi -> exists v, f s = Ok (Fin v) /\ 0 < v) ->
    exists root, find q f [lo; hi] = Ok root /\ lo <= root <= hi /\ Rabs (root - x) <= tol.

Section Obj.
Variables (P : pot) (L e N_i : R).
Let U := potfun_of P L.
Hypotheses (HF : featureless P) (HV : valid P) (HL : L <> 0) (HD : dw_ge1 P).
Hypotheses (Be : branch P e) (Ee : eps1V P e = 1) (Ne : Nfun P e e = 0).
Lemma objective_exact fmt_e ivp verbose tm te t_i eta_i x_end W phi M : branch P phi -> e < phi -> lasts P L N_i phi M ->
  0 < W -> N_i + W + 10 < x_end -> ~ missing (IN 0 U tm te) t_i eta_i -> exact_from ivp U tm te t_i eta_i x_end N_i W phi ->
  exists v, phii2Ntot fmt_e ivp verbose (IN 0 U tm te) t_i eta_i x_end (InN N_i) W phi = Ok (Fin v) /\ (M < W + 10 -> v = M - W) /\ (W + 10 <= M -> 0 < v).
Proof.
  intros HB LE DM W0 XE NM EX. destruct (branch_pos P L phi HF HV HL HB) as [V0 V1].
  destruct (is_start_ok U tm te phi t_i eta_i x_end N_i V0 NM) as (ic & ic' & y1 & SI & ICN & SC & XI).
  pose proof (SC (repeat (Fin 0) (List.length (N_idx tm te))) (repeat_length _ _)) as SC0.
  destruct (is_start_N U tm te phi t_i eta_i x_end N_i ic _ ic' y1 V0 SI (repeat_length _ _) SC0) as (E1 & E2 & L1).
  pose proof (lam_lt P L HF HV HL HD phi e HB Be Ee LE) as LM.
  destruct (st_core P L tm te HF HV HL HD phi N_i y1 HB E1 E2 LM e Be Ee Ne L1) as (y & a & b & N_end & A1 & A2 & B & Ey & I1 & I2 & I3 & Z & _).
  change (potfun_of P L) with U in B, I1, I2, I3, Z.
  assert (DM' : lasts P L N_i phi (N_end - N_i)).
  { split; [lra|]. exists (fun s => [N_phi tm te y s; N_dphi tm te y s]), a, b. replace (N_i + (N_end - N_i)) with N_end by ring.
    split; [exact (N_proj 0 U tm te y a b B)|]. split; [lra|]. split; [exact A2|]. split; [unfold N_phi, N_dphi; rewrite Ey, E1, E2; reflexivity|]. split; [intros n Hn; exact (I3 n Hn)|exact Z]. }
  pose proof (lasts_uniq P L N_i phi M _ DM DM') as EM. assert (EN : N_end = N_i + M) by lra. subst N_end. clear EM DM'.
  pose proof (EX ic ic' y1 SI SC0) as RUN. set (until := N_i + W + 10) in *. set (r := fst (ivp (IN 0 U tm te) N_i x_end y1 (shoot_events until))) in *.
  rewrite <- Ey in RUN. assert (F1 : N_phi tm te y N_i = phi) by (unfold N_phi; rewrite Ey; exact E1). assert (F2 : N_dphi tm te y N_i = - sqrt 2) by (unfold N_dphi; rewrite Ey; exact E2).
  destruct (shoot_core P L e N_i tm te HF HV HL HD Be Ee phi M W x_end y a b HB LE ltac:(lra) B ltac:(lra) A2 F1 F2 I3 Z W0 XE r RUN) as (CON & RC & HT & HY & OUT).
  fold U in CON. fold until in CON, RC, OUT.
  destruct (C34_objective fmt_e ivp verbose (IN 0 U tm te) t_i eta_i x_end (InN N_i) W phi eq_refl W0) as [_ O].
  destruct (O ic N_i ic' y1 N_i SI ICN SC0 XI CON) as (s & ws & nt & ES & GT & C1 & C2 & _). fold until in ES, C2. fold r in ES, C2. clear O.
  assert (NT : nt = fsub (fst (fst (fst (N_end_of (N_eqs 0 U tm te) (shoot_events until) r)))) (fst (N_beg_of (N_eqs 0 U tm te) (shoot_events until) r))).
  { destruct (solve_ok fmt_e (eqs_ie (IN 0 U tm te)) verbose (shoot_events until) r) as [s' [ES' SO] ]; [right; repeat eexists|cbn; nodup|apply CON|].
    rewrite ES in ES'. injection ES' as <- _. destruct SO as [_ [_ [_ [_ [_ [_ [_ [_ [S9 _] ] ] ] ] ] ] ] ].
    unfold get_F, getattr in GT. rewrite S9 in GT. injection GT as <-. reflexivity. }
  assert (NB : fst (N_beg_of (N_eqs 0 U tm te) (shoot_events until) r) = Fin N_i).
  { unfold N_beg_of. rewrite RC. destruct (r_t r) as [|x0 tl]; [discriminate|]. cbn in HT. injection HT as ->. destruct (r_y r) as [|z0 yl]; [discriminate|]. cbn [hd_error] in HY. injection HY as ->.
    change (e_inflating (N_eqs 0 U tm te) N_i (y N_i)) with (N_inflating 0 U tm te N_i (y N_i)). rewrite I2. rewrite (fle_true 0 0) by lra. reflexivity. }
  rewrite NB in NT.
  destruct OUT as [(z' & RI & LEM)|(RI & RU & GEM)].
  - assert (NE : fst (fst (fst (N_end_of (N_eqs 0 U tm te) (shoot_events until) r))) = Fin (N_i + M)) by (unfold N_end_of, end_record; rewrite RI; reflexivity).
    rewrite NE in NT. cbn [fsub] in NT. exists (N_i + M - N_i - W). split; [apply C1; exact NT|]. split; intros; lra.
  - assert (NE : fst (fst (fst (N_end_of (N_eqs 0 U tm te) (shoot_events until) r))) = NaN).
    { unfold N_end_of, end_record. rewrite RI. replace (recorded (is_inflation (-1) false) (shoot_events until) r) with (@nil (R * list R)); [reflexivity|].
      unfold recorded, shoot_events. destruct (r_t_events r) as [|? [|? [|? [|? [|] ] ] ] ]; destruct (r_y_events r) as [|? [|? [|? [|? [|] ] ] ] ]; reflexivity. }
    rewrite NE in NT. cbn [fsub] in NT. assert (NF : isfinite nt = false) by (rewrite NT; reflexivity).
    destruct (C2 NF (or_introl RU)) as (v & Q1 & Q2). exists v. split; [exact Q1|]. split; intros; lra.
Qed.
End Obj.

(** C127: what the search sees. With an exact integrator the objective of ISIC_Nt is the true number of e-folds minus the
    wanted one, up to 10 e-folds too many; from there on it is positive. *)
Theorem C127_objective : forall root P L e,
  let U := potfun_of P L in
  root_spec root -> featureless P -> valid P -> (forall p phi0, P = DoubleWell p phi0 -> 1 <= p) -> P <> DoubleWell 1 (sqrt 2) ->
  L <> 0 -> phi_end root P L = Ok e ->
  exists N_tot : R -> R,
    (forall phi tm te t_i eta_i x_end N_i, branch P phi -> e < phi -> inflates_for U tm te t_i eta_i x_end N_i phi (N_tot phi)) /\
    forall fmt_e ivp verbose tm te t_i eta_i x_end N_i N_wanted phi, branch P phi -> e < phi ->
      0 < N_wanted -> N_i + N_wanted + 10 < x_end -> ~ missing (IN 0 U tm te) t_i eta_i -> exact_from ivp U tm te t_i eta_i x_end N_i N_wanted phi ->
      exists v, phii2Ntot fmt_e ivp verbose (IN 0 U tm te) t_i eta_i x_end (InN N_i) N_wanted phi = Ok (Fin v) /\
        (N_tot phi < N_wanted + 10 -> v = N_tot phi - N_wanted) /\ (N_wanted + 10 <= N_tot phi -> 0 < v).
Proof.
  intros root P L e U HR HF HV HD HN HL HE.
  pose proof (phi_end_branch root P L e HR HF HV HL HN HE) as Be. destruct (phi_end_spec root P L e HR HF HV HL HE) as [_ Ee].
  pose proof (Nfun_end root P L e HF HV HE) as Ne.
  assert (D : forall N_i phi, branch P phi -> e < phi -> lasts P L N_i phi (dur P L phi)).
  { intros N_i phi HB LE. destruct (lasts_ex P L e N_i HF HV HL HD Be Ee phi Ne HB LE) as (M & DM). rewrite (dur_ok P L N_i phi M DM). exact DM. }
  exists (dur P L). split.
  - intros phi tm te t_i eta_i x_end N_i HB LE. apply (lasts_inflates P L e N_i HF HV HL HD Be Ee Ne); [exact HB|exact LE|apply D; assumption].
  - intros fmt_e ivp verbose tm te t_i eta_i x_end N_i W phi HB LE W0 XE NM EX.
    exact (objective_exact P L e N_i HF HV HL HD Be Ee Ne fmt_e ivp verbose tm te t_i eta_i x_end W phi _ HB LE (D N_i phi HB LE) W0 XE NM EX).
Qed.
(** C127: the search succeeds, and the closer the root finder gets the closer the length of inflation is to the wanted one *)
Theorem C127_shooting : forall root P L e lo hi N_wanted N_sr tm te t_i eta_i x_end N_i ivp verbose fmt_e,
  let U := potfun_of P L in
  root_spec root -> featureless P -> valid P -> (forall p phi0, P = DoubleWell p phi0 -> 1 <= p) -> P <> DoubleWell 1 (sqrt 2) ->
  L <> 0 -> phi_end root P L = Ok e -> branch P lo -> branch P hi -> e < lo -> lo < hi ->
  0 < N_wanted -> N_i + N_wanted + 10 < x_end -> ~ missing (IN 0 U tm te) t_i eta_i ->
  lo * (V P L lo / dV P L lo) < N_wanted -> sr_phi2N root P L hi = Ok N_sr -> N_wanted < N_sr - (sqrt 2 * (V P L hi / dV P L hi) - 1) / 2 ->
  (forall phi, lo <= phi <= hi -> exact_from ivp U tm te t_i eta_i x_end N_i N_wanted phi) ->
  forall eps, 0 < eps -> exists delta, 0 < delta /\ forall tol find, 0 <= tol < delta -> brackets_to tol find ->
    exists ic, nt_init (IN 0 U tm te) [lo; hi] t_i eta_i x_end (kw_of (InN N_i)) = Ok ic /\
    forall y0, List.length y0 = List.length (N_idx tm te) ->
    exists ic' y1 phi M, nt_call fmt_e ivp find verbose ic N_wanted [lo; hi] y0 = Ok (ic', map Fin y1, phi) /\
      lo <= phi <= hi /\ ic_phi ic' = phi /\ Rabs (M - N_wanted) < eps /\ (tol = 0 -> M = N_wanted) /\
      (exists y a b, N_background 0 U tm te y a b /\ a < N_i /\ N_i + M < b /\ y N_i = y1) /\
      forall y a b, N_background 0 U tm te y a b -> a < N_i < b -> y N_i = y1 ->
        N_inflating 0 U tm te N_i (y N_i) = 0 /\
        (forall n, N_i < n < N_i + M -> n < b -> 0 < N_inflating 0 U tm te n (y n)) /\
        (N_i + M < b -> N_inflating 0 U tm te (N_i + M) (y (N_i + M)) = 0).
Proof.
  intros root P L e lo hi W N_sr tm te t_i eta_i x_end N_i ivp verbose fmt_e U HR HF HV HD HN HL HE Bl Bh LE LH W0 XE NM LO SR HI EX eps He.
  pose proof (phi_end_branch root P L e HR HF HV HL HN HE) as Be. destruct (phi_end_spec root P L e HR HF HV HL HE) as [_ Ee].
  pose proof (Nfun_end root P L e HF HV HE) as Ne.
  destruct (lasts_start root P L e lo hi W N_sr HR HF HV HD HN HL HE Bl Bh LE LH LO SR HI) as (x & Hx & DX). apply (lasts_shift P L 0 N_i) in DX.
  assert (BR : forall s, lo <= s <= hi -> branch P s) by (intros s Hs; apply (branch_between P lo hi s Bl Bh); rewrite Rmin_left, Rmax_right by lra; exact Hs).
  assert (D : forall phi, lo <= phi <= hi -> lasts P L N_i phi (dur P L phi)).
  { intros phi Hp. destruct (lasts_ex P L e N_i HF HV HL HD Be Ee phi Ne (BR phi Hp) ltac:(lra)) as (M & DM). rewrite (dur_ok P L N_i phi M DM). exact DM. }
  assert (DW : dur P L x = W) by (apply (dur_ok P L N_i x W DX)).
  destruct (lasts_cont P L e N_i HF HV HL HD Be Ee x W (BR x ltac:(lra)) ltac:(lra) DX eps He) as (delta & Hd & CT).
  exists delta. split; [exact Hd|]. intros tol find Ht FI.
  assert (HH : 0 < pV U hi) by (apply (branch_pos P L hi HF HV HL Bh)).
  destruct (is_start_ok U tm te hi t_i eta_i x_end N_i HH NM) as (ic & _ & _ & SI & _ & _). exists ic. split; [exact SI|].
  intros y0 LY.
  set (f := phii2Ntot fmt_e ivp verbose (IN 0 U tm te) t_i eta_i x_end (InN N_i) W).
  assert (OBJ : forall phi, lo <= phi <= hi -> exists v, f phi = Ok (Fin v) /\ (dur P L phi < W + 10 -> v = dur P L phi - W) /\ (W + 10 <= dur P L phi -> 0 < v)).
  { intros phi Hp. exact (objective_exact P L e N_i HF HV HL HD Be Ee Ne fmt_e ivp verbose tm te t_i eta_i x_end W phi _ (BR phi Hp) ltac:(lra) (D phi Hp) W0 XE NM (EX phi Hp)). }
  assert (LT : forall s t, lo <= s -> s < t -> t <= hi -> dur P L s < dur P L t).
  { intros s t A1 A2 A3. apply (lasts_mono P L e N_i HF HV HL HD Be Ee s t); try (apply BR; lra); try (apply D; lra); lra. }
  destruct (FI (IN 0 U tm te) f lo hi x Hx) as (phi & FR & Hp & TOL).
  - intros s Hs. destruct (OBJ s ltac:(lra)) as (v & F1 & F2 & _). exists v. split; [exact F1|]. pose proof (LT s x ltac:(lra) ltac:(lra) ltac:(lra)). rewrite F2 by lra. lra.
  - destruct (OBJ x ltac:(lra)) as (v & F1 & F2 & _). rewrite F1. do 2 f_equal. rewrite F2 by lra. lra.
  - intros s Hs. destruct (OBJ s ltac:(lra)) as (v & F1 & F2 & F3). exists v. split; [exact F1|]. pose proof (LT x s ltac:(lra) ltac:(lra) ltac:(lra)).
    destruct (Rlt_dec (dur P L s) (W + 10)) as [Q|Q]; [rewrite F2 by exact Q; lra|apply F3; lra].
  - assert (HVp : 0 < pV U phi) by (apply (branch_pos P L phi HF HV HL (BR phi Hp))).
    destruct (is_start_ok U tm te phi t_i eta_i x_end N_i HVp NM) as (ic0 & ic' & y1 & SI0 & _ & SC & _).
    destruct (is_init_obj _ _ _ _ _ _ _ SI) as (inp & n & o & aH & H & EI & KI). assert (inp = InN N_i) by (destruct inp; cbn in KI; congruence). subst inp.
    exists ic', y1, phi, (dur P L phi).
    assert (CALL : nt_call fmt_e ivp find verbose ic W [lo; hi] y0 = Ok (ic', map Fin y1, phi)).
    { unfold nt_call. rewrite EI. cbn [is_obj ic_eqs ic_t ic_eta ic_x_end ic_input]. fold f. rewrite FR. cbn [bind]. unfold shoot_finish. cbn [is_obj ic_eqs ic_t ic_eta ic_x_end ic_input]. rewrite SI0. cbn [bind]. rewrite SC by exact LY. reflexivity. }
    split; [exact CALL|]. split; [exact Hp|].
    split; [apply (C35_shooting fmt_e ivp find verbose (IN 0 U tm te) [lo; hi] t_i eta_i x_end (InN N_i) ic W y0 ic' (map Fin y1) phi SI CALL)|].
    split; [apply (CT phi); [lra|apply BR, Hp|lra|apply D, Hp]|]. split.
    { intros ->. assert (phi = x) by (pose proof (Rabs_pos (phi - x)) as Q; assert (Q2 : Rabs (phi - x) = 0) by lra; destruct (Req_dec (phi - x) 0) as [|Q3]; [lra|pose proof (Rabs_pos_lt _ Q3); lra]). subst phi. exact DW. }
    exact (lasts_inflates P L e N_i HF HV HL HD Be Ee Ne tm te t_i eta_i x_end phi _ (BR phi Hp) ltac:(lra) (D phi Hp) ic0 y0 ic' y1 SI0 LY (SC y0 LY)).
Qed.
