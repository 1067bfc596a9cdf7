(** What the solution object says after an integration without error, with the events of the package's own examples (used for C129). *)
From Coq Require Import Reals List String Lra Lia Classical ZArith Bool.
From Coquelicot Require Import Coquelicot.
From Verif Require Import Base Model.Potentials Model.SlowRoll Model.Equations Model.Background Model.Float Model.Solution Model.InitCond Model.Events
  Spec.PotentialSpec Spec.SlowRollSpec Spec.BackgroundSpec Spec.SolutionSpec Spec.ExactRun Proofs.PhiEnd Proofs.SRN Proofs.Bracket Proofs.BackgroundT Proofs.BackgroundN Proofs.BackgroundTN Proofs.BackgroundEx Proofs.FloatLemmas Proofs.Unique
  Proofs.PostProc Proofs.SlowRollBound Proofs.Roll Proofs.RollEnd Proofs.FastRoll Proofs.StartCont Proofs.ShootRun Properties.UniqueProps Properties.SlowRollBoundProps Properties.InflationEndsProps Properties.StartEndsProps.
Import ListNotations.
Open Scope R_scope.

Lemma record_in p events te ye : record_of p events te ye = [] \/ exists i e t y, nth_error events i = Some e /\ p e = true /\ nth_error te i = Some t /\ nth_error ye i = Some y /\ record_of p events te ye = combine t y.
Proof.
  revert te ye. induction events as [|e es IH]; intros [|t te] [|y ye]; try (left; reflexivity). cbn [record_of]. destruct (p e) eqn:PE.
  - right. exists 0%nat, e, t, y. repeat split; assumption.
  - destruct (IH te ye) as [H|(i & e' & t' & y' & H1 & H2 & H3 & H4 & H5)]; [left; exact H|]. right. exists (Datatypes.S i), e', t', y'. repeat split; assumption.
Qed.

(** the start of inflation is recorded, its end stops the run, and every other event is only recorded or looks for H^2 = v <= 0 *)
Definition start_end_events (extra : list event) : list event := Inflation 1 false 0 None :: Inflation (-1) true 0 None :: extra.
Definition only_recorded (e : event) : Prop := event_terminal e = false \/ exists v, v <= 0 /\ e = Collapse v.

Section Reports.
Variables (K : R) (U : potfun) (tm te : bool) (y : R -> list R) (a b N_i E x_end : R).
Hypotheses (B : N_background K U tm te y a b) (A1 : a < N_i < E) (A2 : E < b).
Hypotheses (I0 : 0 <= N_inflating K U tm te N_i (y N_i)) (I1 : forall n, N_i < n < E -> 0 < N_inflating K U tm te n (y n)) (F : falls_through (fun s => N_inflating K U tm te s (y s)) E).
Variables (extra : list event) (r : raw_sol).
Hypotheses (XE : E < x_end) (EX : List.Forall only_recorded extra).
Let q := N_eqs K U tm te.
Let ev := start_end_events extra.
Hypothesis RUN : exact_run K U tm te N_i x_end (y N_i) ev r.

Lemma run_record : ivp_ok (List.length (e_idx q)) (List.length ev) r /\ recorded is_collapse ev r = [] /\
  hd_error (r_t r) = Some N_i /\ hd_error (r_y r) = Some (y N_i) /\ last (r_t r) N_i = E /\ recorded (is_inflation (-1) true) ev r = [(E, y E)].
Proof.
  destruct RUN as (z & a' & b' & T & Bz & A1' & A2' & Ez & HT & HH & HLt & RY & LEN & RE & EV & STOP).
  assert (EQ : forall n, N_i <= n -> n < b -> n < b' -> z n = y n).
  { intros n Hn Hb Hb'. symmetry. apply (C110_efolds K U tm te y z a b a' b' N_i B Bz); try lra. symmetry; exact Ez. }
  destruct (nth_error (r_t_events r) 1) as [t1|] eqn:N1.
  2:{ exfalso. apply nth_error_None in N1. rewrite LEN in N1. cbn in N1. lia. }
  assert (N0 : exists t0, r_t_events r = t0 :: t1 :: skipn 2 (r_t_events r)).
  { destruct (r_t_events r) as [|u0 [|u1 l] ]; try discriminate. cbn in N1. injection N1 as ->. exists u0. reflexivity. }
  destruct N0 as (t0 & TE).
  destruct (EV 1%nat _ _ eq_refl N1) as (ND1 & S1 & C1). cbn [event_call event_terminal event_direction e_inflating N_eqs] in S1, C1.
  assert (TE1 : T <= E).
  { apply Rnot_lt_le. intros X. assert (IN1 : In E t1).
    { apply C1; [lra|]. right. split; [lia|]. destruct F as (F0 & d & Hd & FF). split; [rewrite Rminus_0_r, EQ by lra; exact F0|].
      exists (Rmin d (Rmin (E - N_i) (Rmin (b - E) (b' - E)))).
      pose proof (Rmin_l d (Rmin (E - N_i) (Rmin (b - E) (b' - E)))). pose proof (Rmin_r d (Rmin (E - N_i) (Rmin (b - E) (b' - E)))). pose proof (Rmin_l (E - N_i) (Rmin (b - E) (b' - E))). pose proof (Rmin_r (E - N_i) (Rmin (b - E) (b' - E))).
      pose proof (Rmin_l (b - E) (b' - E)). pose proof (Rmin_r (b - E) (b' - E)).
      split; [repeat apply Rmin_glb_lt; lra|]. intros s. split; intros Hs; rewrite Rminus_0_r; (rewrite EQ by lra); apply (FF s); lra. }
    destruct (S1 E IN1) as (_ & _ & Q). specialize (Q eq_refl). lra. }
  assert (COL : forall i v ts, nth_error ev i = Some (Collapse v) -> v <= 0 -> nth_error (r_t_events r) i = Some ts -> ts = []).
  { intros i v ts Hi Hv Ht. destruct ts as [|t ts]; [reflexivity|]. exfalso. destruct (EV i _ _ Hi Ht) as (_ & SS & _). destruct (SS t (or_introl eq_refl)) as (X1 & X2 & _).
    cbn [event_call e_H2 N_eqs] in X2. destruct (proj2 Bz t ltac:(lra)) as (X3 & _). lra. }
  assert (EXI : forall i e, nth_error ev (Datatypes.S (Datatypes.S i)) = Some e -> only_recorded e).
  { intros i e Hi. cbn in Hi. rewrite Forall_forall in EX. apply EX. eapply nth_error_In. exact Hi. }
  assert (T1 : In T t1).
  { destruct STOP as [STOP|(i & e & ts & M1 & M2 & M3 & M4)]; [lra|]. destruct i as [|[|i] ].
    - cbn in M1. injection M1 as <-. discriminate M3.
    - rewrite N1 in M2. injection M2 as ->. exact M4.
    - exfalso. destruct (EXI i e M1) as [Q|(v & Hv & ->)]; [congruence|]. rewrite (COL _ _ _ M1 Hv M2) in M4. exact M4. }
  assert (X1 : t1 = [T]).
  { destruct (all_same t1 T ND1) as [X|X]; [intros t Ht; destruct (S1 t Ht) as (_ & _ & Q); exact (Q eq_refl)|rewrite X in T1; destruct T1|exact X]. }
  assert (TT : T = E).
  { destruct (S1 T T1) as (_ & Q & _). destruct (Req_dec T E) as [|NE]; [assumption|]. exfalso. pose proof (I1 T ltac:(lra)) as X. rewrite EQ in Q by lra. lra. }
  assert (NE : r_t r <> []) by (intros Q; rewrite Q in HH; discriminate).
  split.
  { split; [exact NE|]. split; [rewrite RY, map_length; reflexivity|]. split; [exact LEN|]. split; [rewrite RE, map_length; exact LEN|].
    intros j ta ya Q1 Q2. rewrite RE, nth_error_map, Q1 in Q2. cbn in Q2. injection Q2 as <-. rewrite map_length. reflexivity. }
  split.
  { unfold recorded. destruct (record_in is_collapse ev (r_t_events r) (r_y_events r)) as [Q|(i & e & t & yy & Q1 & Q2 & Q3 & Q4 & Q5)]; [exact Q|]. rewrite Q5.
    destruct i as [|[|i] ]; try (cbn in Q1; injection Q1 as <-; discriminate Q2). destruct (EXI i e Q1) as [W|(v & Hv & ->)].
    - destruct e; try discriminate Q2. discriminate W.
    - rewrite (COL _ _ _ Q1 Hv Q3). reflexivity. }
  split; [exact HH|]. split; [rewrite RY; destruct (r_t r) as [|x l]; [discriminate|]; cbn in HH |- *; injection HH as ->; rewrite Ez; reflexivity|].
  split; [rewrite HLt; exact TT|]. unfold recorded. rewrite RE, TE, X1, TT. cbn. rewrite EQ by lra. reflexivity.
Qed.

Lemma run_reports fmt_e verbose : NoDup (map (event_name fmt_e) ev) -> exists s, solve fmt_e q verbose ev r = Ok (s, []) /\
  dict_get "_N_beg" s = Some (VF (Fin N_i)) /\ dict_get "_N_end" s = Some (VF (Fin E)) /\ dict_get "N_tot" s = Some (VF (Fin (E - N_i))) /\
  dict_get "phi_end" s = Some (VF (Fin (N_phi tm te y E))) /\ dict_get "V_end" s = Some (VF (Fin (pV U (N_phi tm te y E)))) /\
  dict_get "H_end" s = Some (VF (Fin (N_Hub K U tm te y E))) /\ dict_get "H_beg" s = Some (VF (Fin (N_Hub K U tm te y N_i))) /\
  dict_get "_N" s = Some (VA (map Fin (r_t r))) /\ last (r_t r) N_i = E /\
  exists mask, dict_get "inflation_mask" s = Some (VB mask) /\ List.length mask = List.length (r_t r) /\
    forall i n m, nth_error (r_t r) i = Some n -> nth_error mask i = Some m -> (m = true <-> N_i < n < E).
Proof.
  intros ND. destruct run_record as (IV & RC & HH & HY & HLt & RI).
  destruct (solve_ok fmt_e q verbose ev r) as (s & ES & SO); [right; repeat eexists|exact ND|exact IV|].
  assert (LT : List.length (r_t r) = List.length (r_y r)) by apply IV.
  destruct (r_t r) as [|x0 tl] eqn:Et; [discriminate|]. injection HH as ->. destruct (r_y r) as [|z0 yl] eqn:Ey; [discriminate|]. injection HY as ->.
  assert (ER : end_record ev r = [(E, y E)]) by (unfold end_record; rewrite RI; reflexivity).
  assert (FL : fle (Fin 0) (Fin (e_inflating q N_i (y N_i))) = true) by (apply fle_true; exact I0).
  assert (NB : N_beg_of q ev r = (Fin N_i, e_H q N_i (y N_i))) by (unfold N_beg_of; rewrite RC, Et, Ey, FL; reflexivity).
  assert (NE : N_end_of q ev r = (Fin E, Fin (N_phi tm te y E), e_H q E (y E), Fin (pV U (N_phi tm te y E)))) by (unfold N_end_of; rewrite ER; reflexivity).
  assert (HF : forall n, a < n < b -> e_H q n (y n) = Fin (N_Hub K U tm te y n)).
  { intros n Hn. destruct (proj2 B n Hn) as (HP & _). unfold e_H. change (e_H2 q n (y n)) with (N_H2 K U tm te n (y n)). rewrite fsqrt_fin by lra. reflexivity. }
  rewrite RC, ER, FL in ES. cbn [orb app] in ES. exists s. split; [exact ES|].
  unfold solved in SO. rewrite NB, NE in SO. cbn [fst snd] in SO. rewrite !HF in SO by lra. rewrite Et, Ey in SO.
  assert (ZW : zipw (e_N q) (N_i :: tl) (y N_i :: yl) = N_i :: tl) by (apply (zipw_fst (N_i :: tl) (y N_i :: yl)); exact LT). rewrite ZW in SO.
  destruct SO as (G1 & G2 & _ & G4 & G5 & G6 & G7 & _ & G9 & _ & G11 & _ & _ & _ & G15).
  repeat (split; [assumption|]).
  exists (map (fun n => (flt (Fin N_i) n && flt n (Fin E))%bool) (map Fin (N_i :: tl))). split; [rewrite G15; reflexivity|].
  split; [rewrite !map_length; reflexivity|]. intros i n m Q1 Q2. rewrite map_map, nth_error_map, Q1 in Q2. cbn in Q2. injection Q2 as <-.
  unfold flt. destruct (Rlt_dec N_i n), (Rlt_dec n E); cbn; split; intros; try discriminate; try lra; try reflexivity; lra.
Qed.
End Reports.
