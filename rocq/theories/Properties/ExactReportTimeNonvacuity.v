(** C129 in cosmic time: a run that meets the hypotheses. *)
From Coq Require Import Reals List String Lra Lia Classical ZArith Bool.
From Coquelicot Require Import Coquelicot.
From Verif Require Import Base Model.Potentials Model.SlowRoll Model.Equations Model.Background Model.Float Model.Solution Model.InitCond Model.Events
  Model.State Model.ApproxPower Model.Calibrate Model.BigBang Model.Shooting Model.Solver
  Spec.PotentialSpec Spec.SlowRollSpec Spec.BackgroundSpec Spec.SolutionSpec Spec.ExactRun Spec.ExactRunT Proofs.PhiEnd Proofs.SRN Proofs.Bracket Proofs.SolLemmas Proofs.SlowRollBound Proofs.Roll Proofs.FastRoll Proofs.StartCont Proofs.ShootRun Proofs.ShootRunT
  Properties.InitProps Properties.UniqueProps Properties.SlowRollBoundProps Properties.EndNonvacuity Properties.InflationEndsProps Properties.StartEndsProps Properties.StartEndsNonvacuity Properties.StartContProps Properties.ExactShootTimeProps Properties.ExactReportProps
  Properties.ExactReportNonvacuity Properties.ExactReportTimeProps.
Import ListNotations.
Open Scope R_scope.
Open Scope string_scope.

(** an evolution sampled at its two ends is an exact run *)
Lemma two_samples_T K U te y a b t_i E x_end : T_background K U te y a b -> a < t_i < E -> E < b -> E <= x_end ->
  (forall t, t_i < t < E -> 0 < T_inflating U te t (y t)) -> T_inflating U te E (y E) = 0 ->
  exact_run_time K U te t_i x_end (y t_i) [Inflation 1 false 0 None; Inflation (-1) true 0 None; Collapse 0] (mkraw [t_i; E] [y t_i; y E] [[]; [E]; []] [[]; [y E]; []]).
Proof.
  intros B A1 A2 XE I1 Z.
  assert (NI : forall t, t_i < t < E -> forall d, ~ passes d (fun s => T_inflating U te s (y s) - 0) t).
  { intros t Ht d. pose proof (I1 t Ht) as X. intros [ (_ & Q & _) | (_ & Q & _) ]; lra. }
  exists y, a, b, E. split; [exact B|]. split; [lra|]. split; [lra|]. split; [reflexivity|]. split; [lra|]. split; [reflexivity|]. split; [reflexivity|]. split; [reflexivity|]. split; [reflexivity|]. split; [reflexivity|]. split.
  - intros [|[|[|[|i] ] ] ] ev ts N1 N2; cbn in N1, N2; try discriminate; injection N1 as <-; injection N2 as <-; cbn [event_call event_terminal event_direction]; cbn [e_inflating e_N e_H2 T_eqs].
    + split; [constructor|]. split; [intros t []|]. intros t Ht Q. destruct (NI t Ht _ Q).
    + split; [constructor; [intros []|constructor]|]. split; [intros t [<-|[] ]; split; [lra|]; split; [rewrite Z; ring|reflexivity]|]. intros t Ht Q. destruct (NI t Ht _ Q).
    + split; [constructor|]. split; [intros t []|]. intros t Ht Q. exfalso. destruct (proj2 B t ltac:(lra)) as (X & _). destruct Q as [ (_ & Q & _) | (_ & Q & _) ]; lra.
  - right. exists 1%nat, (Inflation (-1) true 0 None), [E]. split; [reflexivity|]. split; [reflexivity|]. split; [reflexivity|left; reflexivity].
Qed.

(** InflationStartIC at phi = 10 in the quadratic potential, conformal time tracked, starting at t = 1: there is an integrator
    that meets the hypotheses, and solve() reports between 21 and 50 e-folds and an end below phi = sqrt 2 *)
Theorem C129_time_nonvacuous : forall F euler z3 S fmt_e find verbose, exists root, root_spec root /\ phi_end root Quadratic 1 = Ok (sqrt 2) /\
  exists x_end ivp ic s b N_tot phi_e, is_init (IT 0 (potfun_of Quadratic 1) true) 10 (Some 1) (Some 0) x_end (kw_of (InN 0)) = Ok ic /\
     (forall ic' y1, is_call ic [Fin 0; Fin 0; Fin 0; Fin 0] = Ok (ic', map Fin y1) ->
        exact_run_time 0 (potfun_of Quadratic 1) true 1 x_end y1 events3 (fst (ivp (snd (split_kw [("events", KwEvents events3)])) (IT 0 (potfun_of Quadratic 1) true) 1 x_end y1 events3))) /\
     solve_kw F euler z3 S fmt_e ivp find verbose (AStart ic) [] [("events", KwEvents events3)] = Ok (s, b) /\
     dict_get "_N_beg" s = Some (VF (Fin 0)) /\ dict_get "N_tot" s = Some (VF (Fin N_tot)) /\ 21 <= N_tot <= 50 /\ dict_get "phi_end" s = Some (VF (Fin phi_e)) /\ 0 < phi_e < sqrt 2.
Proof.
  intros F euler z3 S fmt_e find verbose. destruct C125_nonvacuous as (root & HR & PE & _). pose proof sq2 as S2.
  exists root. split; [exact HR|]. split; [exact PE|].
  assert (SB : 7/5 < sqrt 2 < 3/2) by (assert (sqrt 2 * sqrt 2 = 2) by (apply sqrt_sqrt; lra); assert (0 < sqrt 2) by (apply sqrt_lt_R0; lra); split; nra).
  assert (B10 : branch Quadratic 10) by (cbn; lra).
  assert (VV : V Quadratic 1 10 / dV Quadratic 1 10 = 5) by (unfold V, dV, quad_V, quad_dV; field).
  assert (NM : ~ missing (IT 0 (potfun_of Quadratic 1) true) (Some 1) (Some 0)) by (intros [_ Q]; discriminate).
  assert (NF : forall N_sr, sr_phi2N root Quadratic 1 10 = Ok N_sr -> N_sr = 49 / 2) by (intros N_sr Q; exact (quad_Nsr root N_sr Q)).
  assert (ND : NoDup (map (event_name fmt_e) events3)) by (cbn; nodup).
  assert (FX : List.Forall (fun e => event_terminal e = false \/ exists v, v <= 0 /\ e = Collapse v) [Collapse 0]) by (constructor; [right; exists 0; split; [lra|reflexivity]|constructor]).
  set (TB := 10 * (V Quadratic 1 10 / dV Quadratic 1 10) * (sqrt (3 / V Quadratic 1 10) * exp (1 / 2 + 10 * (V Quadratic 1 10 / dV Quadratic 1 10)))).
  set (x_end := TB + 2). assert (XE : TB < x_end - 1) by (unfold x_end; lra). clearbody x_end.
  destruct (is_start_ok_T (potfun_of Quadratic 1) true 10 1 (Some 0) x_end 0 quad_V10 NM) as (ic & ic' & y1 & SI & _ & SC & _).
  pose proof (SC [Fin 0; Fin 0; Fin 0; Fin 0] eq_refl) as SC0.
  destruct (C128_duration root Quadratic 1 true 10 1 (Some 0) x_end 0 (sqrt 2) ic _ ic' y1 HR I I ltac:(intros; discriminate) ltac:(discriminate) ltac:(lra) B10 PE ltac:(lra) SI (eq_refl : List.length [Fin 0; Fin 0; Fin 0; Fin 0] = _) SC0)
    as (E & M0 & N0 & T0 & _ & _ & TD & (y & a & b & B & A1 & A2 & Ey) & UN).
  fold TB in TD. destruct (UN y a b B ltac:(lra) Ey) as (_ & I3 & Z). destruct (Z A2) as [Z0 _].
  set (r := mkraw [1; E] [y 1; y E] [[]; [E]; []] [[]; [y E]; []]).
  set (ivp := (fun _ _ _ _ _ _ => (r, false)) : settings -> integrator).
  assert (EX : forall ic'' y1', is_call ic [Fin 0; Fin 0; Fin 0; Fin 0] = Ok (ic'', map Fin y1') -> exact_run_time 0 (potfun_of Quadratic 1) true 1 x_end y1' events3 r).
  { intros ic'' y1' Q. assert (y1' = y1).
    { rewrite SC0 in Q. injection Q as _ Q. clear - Q. revert y1' Q. induction y1 as [|u l IH]; intros [|u' l'] Q; try discriminate; [reflexivity|]. cbn in Q. injection Q as Q1 Q2. f_equal; [congruence|apply IH, Q2]. }
    subst y1'. rewrite <- Ey. apply (two_samples_T _ _ _ y a b 1 E x_end B ltac:(lra) A2 ltac:(lra)); [intros t Ht; apply I3; lra|exact Z0]. }
  destruct (C129_time_start F euler z3 S fmt_e ivp find verbose root Quadratic 1 true 10 1 (Some 0) x_end 0 (sqrt 2) ic [("events", KwEvents events3)] [Collapse 0]
    HR I I ltac:(intros; discriminate) ltac:(discriminate) ltac:(lra) B10 PE ltac:(lra) SI NM eq_refl eq_refl ND FX XE EX) as (s & y1' & t_end & M & p & N' & K1 & _ & _ & _ & SA & HP & SR' & UP' & _).
  rewrite VV in UP'. rewrite (NF N' SR') in UP'. destruct SA as (G1 & _ & G3 & G4 & _). replace (0 + M - 0) with M in G3 by ring.
  exists x_end, ivp, ic, s, false, M, p. split; [exact SI|]. split; [exact EX|]. split; [exact K1|]. split; [exact G1|]. split; [exact G3|]. split; [lra|]. split; [exact G4|exact HP].
Qed.
