(** C129: runs that meet the hypotheses. *)
From Coq Require Import Reals List String Lra Lia Classical ZArith Bool.
From Coquelicot Require Import Coquelicot.
From Verif Require Import Base Model.Potentials Model.SlowRoll Model.Equations Model.Background Model.Float Model.Solution Model.InitCond Model.Events
  Model.State Model.ApproxPower Model.Calibrate Model.BigBang Model.Shooting Model.Solver
  Spec.PotentialSpec Spec.SlowRollSpec Spec.BackgroundSpec Spec.SolutionSpec Spec.ExactRun Proofs.PhiEnd Proofs.SRN Proofs.Bracket Proofs.SolLemmas Proofs.SlowRollBound Proofs.Roll Proofs.FastRoll Proofs.StartCont Proofs.ShootRun
  Properties.InitProps Properties.SlowRollBoundProps Properties.EndNonvacuity Properties.InflationEndsProps Properties.StartEndsProps Properties.StartEndsNonvacuity Properties.StartContProps Properties.ExactReportProps.
Import ListNotations.
Open Scope R_scope.
Open Scope string_scope.

(** an evolution sampled at its two ends is an exact run *)
Lemma two_samples K U tm te y a b N_i E x_end : N_background K U tm te y a b -> a < N_i < E -> E < b -> E <= x_end ->
  (forall n, N_i < n < E -> 0 < N_inflating K U tm te n (y n)) -> N_inflating K U tm te E (y E) = 0 ->
  exact_run K U tm te N_i x_end (y N_i) [Inflation 1 false 0 None; Inflation (-1) true 0 None; Collapse 0] (mkraw [N_i; E] [y N_i; y E] [[]; [E]; []] [[]; [y E]; []]).
Proof.
  intros B A1 A2 XE I1 Z.
  assert (NI : forall t, N_i < t < E -> forall d, ~ passes d (fun s => N_inflating K U tm te s (y s) - 0) t).
  { intros t Ht d. pose proof (I1 t Ht) as X. intros [ (_ & Q & _) | (_ & Q & _) ]; lra. }
  exists y, a, b, E. split; [exact B|]. split; [lra|]. split; [lra|]. split; [reflexivity|]. split; [lra|]. split; [reflexivity|]. split; [reflexivity|]. split; [reflexivity|]. split; [reflexivity|]. split; [reflexivity|]. split.
  - intros [|[|[|[|i] ] ] ] ev ts N1 N2; cbn in N1, N2; try discriminate; injection N1 as <-; injection N2 as <-; cbn [event_call event_terminal event_direction]; cbn [e_inflating e_N e_H2 N_eqs].
    + split; [constructor|]. split; [intros t []|]. intros t Ht Q. destruct (NI t Ht _ Q).
    + split; [constructor; [intros []|constructor]|]. split; [intros t [<-|[] ]; split; [lra|]; split; [rewrite Z; ring|reflexivity]|]. intros t Ht Q. destruct (NI t Ht _ Q).
    + split; [constructor|]. split; [intros t []|]. intros t Ht Q. exfalso. destruct (proj2 B t ltac:(lra)) as (X & _). destruct Q as [ (_ & Q & _) | (_ & Q & _) ]; lra.
  - right. exists 1%nat, (Inflation (-1) true 0 None), [E]. split; [reflexivity|]. split; [reflexivity|]. split; [reflexivity|left; reflexivity].
Qed.

Definition events3 : list event := [Inflation 1 false 0 None; Inflation (-1) true 0 None; Collapse 0].
(** InflationStartIC and SlowRollIC at phi = 10 in the quadratic potential, all clocks tracked: there is an integrator that
    meets the hypotheses, and solve() reports between 21 and 50 e-folds and an end below phi = sqrt 2 *)
Theorem C129_nonvacuous : forall F euler z3 S fmt_e find verbose, exists root, root_spec root /\ phi_end root Quadratic 1 = Ok (sqrt 2) /\
  (exists ivp ic s b N_tot phi_e, is_init (IN 0 (potfun_of Quadratic 1) true true) 10 (Some 1) (Some 0) 100 (kw_of (InN 0)) = Ok ic /\
     (forall ic' y1, is_call ic [Fin 0; Fin 0; Fin 0; Fin 0] = Ok (ic', map Fin y1) ->
        exact_run 0 (potfun_of Quadratic 1) true true 0 100 y1 events3 (fst (ivp (snd (split_kw [("events", KwEvents events3)])) (IN 0 (potfun_of Quadratic 1) true true) 0 100 y1 events3))) /\
     solve_kw F euler z3 S fmt_e ivp find verbose (AStart ic) [] [("events", KwEvents events3)] = Ok (s, b) /\
     dict_get "_N_beg" s = Some (VF (Fin 0)) /\ dict_get "N_tot" s = Some (VF (Fin N_tot)) /\ 21 <= N_tot <= 50 /\ dict_get "phi_end" s = Some (VF (Fin phi_e)) /\ 0 < phi_e < sqrt 2) /\
  (exists ivp ic y1 s b N_tot phi_e, sr_init (IN 0 (potfun_of Quadratic 1) true true) 10 (Some 1) (Some 0) 100 (kw_of (InN 0)) = Ok ic /\ sr_call ic [Fin 0; Fin 0; Fin 0; Fin 0] = Ok (map Fin y1) /\
     exact_run 0 (potfun_of Quadratic 1) true true 0 100 y1 events3 (fst (ivp (snd (split_kw [("events", KwEvents events3)])) (IN 0 (potfun_of Quadratic 1) true true) 0 100 y1 events3)) /\
     solve_kw F euler z3 S fmt_e ivp find verbose (ASlowRoll ic) [] [("events", KwEvents events3)] = Ok (s, b) /\
     dict_get "_N_beg" s = Some (VF (Fin 0)) /\ dict_get "N_tot" s = Some (VF (Fin N_tot)) /\ 49/2 <= N_tot <= 50 /\ dict_get "phi_end" s = Some (VF (Fin phi_e)) /\ 0 < phi_e < sqrt 2).
Proof.
  intros F euler z3 S fmt_e find verbose. destruct C125_nonvacuous as (root & HR & PE & _). pose proof sq2 as S2.
  exists root. split; [exact HR|]. split; [exact PE|].
  assert (SB : 7/5 < sqrt 2 < 3/2) by (assert (sqrt 2 * sqrt 2 = 2) by (apply sqrt_sqrt; lra); assert (0 < sqrt 2) by (apply sqrt_lt_R0; lra); split; nra).
  assert (B10 : branch Quadratic 10) by (cbn; lra).
  assert (VV : V Quadratic 1 10 / dV Quadratic 1 10 = 5) by (unfold V, dV, quad_V, quad_dV; field).
  assert (NM : ~ missing (IN 0 (potfun_of Quadratic 1) true true) (Some 1) (Some 0)) by (intros [ [_ Q] | [_ Q] ]; discriminate).
  assert (NF : forall N_sr, sr_phi2N root Quadratic 1 10 = Ok N_sr -> N_sr = 49 / 2).
  { intros N_sr Q. exact (quad_Nsr root N_sr Q). }
  assert (ND : NoDup (map (event_name fmt_e) events3)) by (cbn; nodup).
  assert (FX : List.Forall (fun e => event_terminal e = false \/ exists v, v <= 0 /\ e = Collapse v) [Collapse 0]) by (constructor; [right; exists 0; split; [lra|reflexivity]|constructor]).
  split.
  - destruct (is_start_ok (potfun_of Quadratic 1) true true 10 (Some 1) (Some 0) 100 0 quad_V10 NM) as (ic & ic' & y1 & SI & _ & SC & _).
    pose proof (SC [Fin 0; Fin 0; Fin 0; Fin 0] eq_refl) as SC0.
    destruct (C125_efolds root Quadratic 1 true true 10 (Some 1) (Some 0) 100 0 (sqrt 2) ic _ ic' y1 HR I I ltac:(intros; discriminate) ltac:(discriminate) ltac:(lra) B10 PE ltac:(lra) SI (eq_refl : List.length [Fin 0; Fin 0; Fin 0; Fin 0] = _) SC0)
      as (y & a & b & E & N_sr & A1 & A2 & B & Ey & _ & _ & I3 & Z & SR & UP). rewrite VV in UP.
    set (r := mkraw [0; E] [y 0; y E] [[]; [E]; []] [[]; [y E]; []]).
    set (ivp := (fun _ _ _ _ _ _ => (r, false)) : settings -> integrator).
    assert (EX : forall ic'' y1', is_call ic [Fin 0; Fin 0; Fin 0; Fin 0] = Ok (ic'', map Fin y1') -> exact_run 0 (potfun_of Quadratic 1) true true 0 100 y1' events3 r).
    { intros ic'' y1' Q. assert (y1' = y1).
      { rewrite SC0 in Q. injection Q as _ Q. clear - Q. revert y1' Q. induction y1 as [|u l IH]; intros [|u' l'] Q; try discriminate; [reflexivity|]. cbn in Q. injection Q as Q1 Q2. f_equal; [congruence|apply IH, Q2]. }
      subst y1'. rewrite <- Ey. apply (two_samples _ _ _ _ y a b 0 E 100 B A1 A2 ltac:(lra) I3 Z). }
    destruct (C129_start F euler z3 S fmt_e ivp find verbose root Quadratic 1 true true 10 (Some 1) (Some 0) 100 0 (sqrt 2) ic [("events", KwEvents events3)] [Collapse 0]
      HR I I ltac:(intros; discriminate) ltac:(discriminate) ltac:(lra) B10 PE ltac:(lra) SI NM eq_refl eq_refl ND FX ltac:(rewrite VV; lra) EX) as (s & y1' & M & p & N' & K1 & _ & _ & SA & HP & SR' & UP').
    rewrite VV in UP'. rewrite (NF N' SR') in UP'. destruct SA as (G1 & _ & G3 & G4 & _). replace (0 + M - 0) with M in G3 by ring.
    exists ivp, ic, s, false, M, p. split; [exact SI|]. split; [exact EX|]. split; [exact K1|]. split; [exact G1|]. split; [exact G3|]. split; [lra|]. split; [exact G4|exact HP].
  - destruct (starts_N (potfun_of Quadratic 1) 10 1 0 100 0 quad_V10) as (ic & y1 & SI & SC).
    destruct (C120_efolds root Quadratic 1 true true 10 (Some 1) (Some 0) 100 0 (sqrt 2) ic _ y1 HR I I ltac:(intros; discriminate) ltac:(discriminate) ltac:(lra) B10 PE ltac:(lra) SI (eq_refl : List.length [Fin 0; Fin 0; Fin 0; Fin 0] = _) SC)
      as (y & a & b & E & N_sr & A1 & A2 & B & Ey & I3 & Z & SR & UP). rewrite quad_up in UP.
    set (r := mkraw [0; E] [y 0; y E] [[]; [E]; []] [[]; [y E]; []]).
    set (ivp := (fun _ _ _ _ _ _ => (r, false)) : settings -> integrator).
    assert (EX : exact_run 0 (potfun_of Quadratic 1) true true 0 100 y1 events3 r).
    { rewrite <- Ey. apply (two_samples _ _ _ _ y a b 0 E 100 B A1 A2 ltac:(lra)); [intros n Hn; apply I3; lra|exact Z]. }
    destruct (C129_slow_roll F euler z3 S fmt_e ivp find verbose root Quadratic 1 true true 10 (Some 1) (Some 0) 100 0 (sqrt 2) ic y1 [("events", KwEvents events3)] [Collapse 0]
      HR I I ltac:(intros; discriminate) ltac:(discriminate) ltac:(lra) B10 PE ltac:(lra) SI SC eq_refl eq_refl ND FX ltac:(rewrite quad_up; lra) EX) as (s & hb & M & p & N' & K1 & _ & _ & _ & SA & HP & SR' & UP').
    rewrite quad_up in UP'. rewrite (NF N' SR') in UP'. destruct SA as (G1 & _ & G3 & G4 & _). replace (0 + M - 0) with M in G3 by ring.
    exists ivp, ic, y1, s, false, M, p. split; [exact SI|]. split; [exact SC|]. split; [exact EX|]. split; [exact K1|]. split; [exact G1|]. split; [exact G3|]. split; [lra|]. split; [exact G4|exact HP].
Qed.
