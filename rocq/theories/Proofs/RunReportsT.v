(** What the solution object says after an integration without error, with the events of the package's own examples (cosmic time; used for C129). *)
From Coq Require Import Reals List String Lra Lia Classical ZArith Bool.
From Coquelicot Require Import Coquelicot.
From Verif Require Import Base Model.Potentials Model.SlowRoll Model.Equations Model.Background Model.Float Model.Solution Model.InitCond Model.Events
  Spec.PotentialSpec Spec.SlowRollSpec Spec.BackgroundSpec Spec.SolutionSpec Spec.ExactRun Spec.ExactRunT Proofs.PhiEnd Proofs.SRN Proofs.Bracket Proofs.BackgroundT Proofs.BackgroundN Proofs.BackgroundTN Proofs.BackgroundEx Proofs.FloatLemmas Proofs.Unique
  Proofs.PostProc Proofs.SlowRollBound Proofs.Roll Proofs.RollEnd Proofs.FastRoll Proofs.StartCont Proofs.ShootRun Proofs.ShootRunT Proofs.RunReports Properties.UniqueProps Properties.SlowRollBoundProps Properties.InflationEndsProps Properties.StartEndsProps.
Import ListNotations.
Open Scope R_scope.

Section ReportsT.
Variables (K : R) (U : potfun) (te : bool) (y : R -> list R) (a b t_i tE x_end : R).
Hypotheses (B : T_background K U te y a b) (A1 : a < t_i < tE) (A2 : tE < b).
Hypotheses (I0 : 0 <= T_inflating U te t_i (y t_i)) (I1 : forall n, t_i < n < tE -> 0 < T_inflating U te n (y n)) (F : falls_through (fun s => T_inflating U te s (y s)) tE).
Variables (extra : list event) (r : raw_sol).
Hypotheses (XE : tE < x_end) (EX : List.Forall only_recorded extra).
Let q := T_eqs K U te.
Let ev := start_end_events extra.
Hypothesis RUN : exact_run_time K U te t_i x_end (y t_i) ev r.

Lemma run_record_T : ivp_ok (List.length (e_idx q)) (List.length ev) r /\ recorded is_collapse ev r = [] /\
  hd_error (r_t r) = Some t_i /\ hd_error (r_y r) = Some (y t_i) /\ last (r_t r) t_i = tE /\ recorded (is_inflation (-1) true) ev r = [(tE, y tE)] /\ last (r_y r) (y t_i) = y tE.
Proof.
  destruct RUN as (z & a' & b' & T & Bz & A1' & A2' & Ez & HT & HH & HLt & RY & LEN & RE & EV & STOP).
  assert (EQ : forall n, t_i <= n -> n < b -> n < b' -> z n = y n).
  { intros n Hn Hb Hb'. symmetry. apply (C110_time K U te y z a b a' b' t_i B Bz); try lra. symmetry; exact Ez. }
  destruct (nth_error (r_t_events r) 1) as [t1|] eqn:N1.
  2:{ exfalso. apply nth_error_None in N1. rewrite LEN in N1. cbn in N1. lia. }
  assert (N0 : exists t0, r_t_events r = t0 :: t1 :: skipn 2 (r_t_events r)).
  { destruct (r_t_events r) as [|u0 [|u1 l] ]; try discriminate. cbn in N1. injection N1 as ->. exists u0. reflexivity. }
  destruct N0 as (t0 & TE).
  destruct (EV 1%nat _ _ eq_refl N1) as (ND1 & S1 & C1). cbn [event_call event_terminal event_direction e_inflating T_eqs] in S1, C1.
  assert (TE1 : T <= tE).
  { apply Rnot_lt_le. intros X. assert (IN1 : In tE t1).
    { apply C1; [lra|]. right. split; [lia|]. destruct F as (F0 & d & Hd & FF). split; [rewrite Rminus_0_r, EQ by lra; exact F0|].
      exists (Rmin d (Rmin (tE - t_i) (Rmin (b - tE) (b' - tE)))).
      pose proof (Rmin_l d (Rmin (tE - t_i) (Rmin (b - tE) (b' - tE)))). pose proof (Rmin_r d (Rmin (tE - t_i) (Rmin (b - tE) (b' - tE)))). pose proof (Rmin_l (tE - t_i) (Rmin (b - tE) (b' - tE))). pose proof (Rmin_r (tE - t_i) (Rmin (b - tE) (b' - tE))).
      pose proof (Rmin_l (b - tE) (b' - tE)). pose proof (Rmin_r (b - tE) (b' - tE)).
      split; [repeat apply Rmin_glb_lt; lra|]. intros s. split; intros Hs; rewrite Rminus_0_r; (rewrite EQ by lra); apply (FF s); lra. }
    destruct (S1 tE IN1) as (_ & _ & Q). specialize (Q eq_refl). lra. }
  assert (COL : forall i v ts, nth_error ev i = Some (Collapse v) -> v <= 0 -> nth_error (r_t_events r) i = Some ts -> ts = []).
  { intros i v ts Hi Hv Ht. destruct ts as [|t ts]; [reflexivity|]. exfalso. destruct (EV i _ _ Hi Ht) as (_ & SS & _). destruct (SS t (or_introl eq_refl)) as (X1 & X2 & _).
    cbn [event_call e_H2 T_eqs] in X2. destruct (proj2 Bz t ltac:(lra)) as (X3 & _). lra. }
  assert (EXI : forall i e, nth_error ev (Datatypes.S (Datatypes.S i)) = Some e -> only_recorded e).
  { intros i e Hi. cbn in Hi. rewrite Forall_forall in EX. apply EX. eapply nth_error_In. exact Hi. }
  assert (T1 : In T t1).
  { destruct STOP as [STOP|(i & e & ts & M1 & M2 & M3 & M4)]; [lra|]. destruct i as [|[|i] ].
    - cbn in M1. injection M1 as <-. discriminate M3.
    - rewrite N1 in M2. injection M2 as ->. exact M4.
    - exfalso. destruct (EXI i e M1) as [Q|(v & Hv & ->)]; [congruence|]. rewrite (COL _ _ _ M1 Hv M2) in M4. exact M4. }
  assert (X1 : t1 = [T]).
  { destruct (all_same t1 T ND1) as [X|X]; [intros t Ht; destruct (S1 t Ht) as (_ & _ & Q); exact (Q eq_refl)|rewrite X in T1; destruct T1|exact X]. }
  assert (TT : T = tE).
  { destruct (S1 T T1) as (_ & Q & _). destruct (Req_dec T tE) as [|NE]; [assumption|]. exfalso. pose proof (I1 T ltac:(lra)) as X. rewrite EQ in Q by lra. lra. }
  assert (NE : r_t r <> []) by (intros Q; rewrite Q in HH; discriminate).
  split.
  { split; [exact NE|]. split; [rewrite RY, map_length; reflexivity|]. split; [exact LEN|]. split; [rewrite RE, map_length; exact LEN|].
    intros j ta ya Q1 Q2. rewrite RE, nth_error_map, Q1 in Q2. cbn in Q2. injection Q2 as <-. rewrite map_length. reflexivity. }
  split.
  { unfold recorded. destruct (record_in is_collapse ev (r_t_events r) (r_y_events r)) as [Q|(i & e & t & yy & Q1 & Q2 & Q3 & Q4 & Q5)]; [exact Q|]. rewrite Q5.
    destruct i as [|[|i] ]; try (cbn in Q1; injection Q1 as <-; discriminate Q2). destruct (EXI i e Q1) as [W|(v & Hv & ->)].
    - destruct e; try discriminate Q2. discriminate W.
    - rewrite (COL _ _ _ Q1 Hv Q3). reflexivity. }
  split; [exact HH|]. split; [rewrite RY; destruct (r_t r) as [|x l]; [discriminate|]; cbn in HH |- *; injection HH as ->; rewrite Ez; reflexivity|].
  split; [rewrite HLt; exact TT|]. split; [unfold recorded; rewrite RE, TE, X1, TT; cbn; rewrite EQ by lra; reflexivity|].
  rewrite RY, (last_map_nn z (r_t r) t_i (y t_i) NE), HLt, TT. apply EQ; lra.
Qed.

Let Nb := T_N te y t_i.
Let Ne := T_N te y tE.
Let Ns := map (fun st => var (T_idx te) "_N"%string st) (r_y r).
Lemma run_reports_T fmt_e verbose : NoDup (map (event_name fmt_e) ev) -> exists s, solve fmt_e q verbose ev r = Ok (s, []) /\
  dict_get "_N_beg" s = Some (VF (Fin Nb)) /\ dict_get "_N_end" s = Some (VF (Fin Ne)) /\ dict_get "N_tot" s = Some (VF (Fin (Ne - Nb))) /\
  dict_get "phi_end" s = Some (VF (Fin (T_phi te y tE))) /\ dict_get "V_end" s = Some (VF (Fin (pV U (T_phi te y tE)))) /\
  dict_get "H_end" s = Some (VF (Fin (T_Hub K U te y tE))) /\ dict_get "H_beg" s = Some (VF (Fin (T_Hub K U te y t_i))) /\
  dict_get "_N" s = Some (VA (map Fin Ns)) /\ last Ns Nb = Ne /\
  exists mask, dict_get "inflation_mask" s = Some (VB mask) /\ List.length mask = List.length Ns /\
    forall i n m, nth_error Ns i = Some n -> nth_error mask i = Some m -> (m = true <-> Nb < n < Ne).
Proof.
  intros ND. destruct run_record_T as (IV & RC & HH & HY & HLt & RI & LY).
  destruct (solve_ok fmt_e q verbose ev r) as (s & ES & SO); [left; repeat eexists|exact ND|exact IV|].
  assert (LT : List.length (r_t r) = List.length (r_y r)) by apply IV.
  assert (ZW : zipw (e_N q) (r_t r) (r_y r) = Ns).
  { unfold Ns. change (e_N q) with (fun (_ : R) (st : list R) => var (T_idx te) "_N"%string st). revert LT. clear. generalize (r_y r). induction (r_t r) as [|x l IH]; intros [|v m] H; try discriminate; [reflexivity|]. cbn. rewrite IH; [reflexivity|]. cbn in H. congruence. }
  assert (LN : last Ns Nb = Ne).
  { unfold Ns, Nb, Ne, T_N. rewrite (last_map_nn _ (r_y r) (y t_i)); [rewrite LY; reflexivity|]. intros Q. rewrite Q in HY. discriminate. }
  clearbody Ns. destruct (r_t r) as [|x0 tl] eqn:Et; [discriminate|]. injection HH as ->. destruct (r_y r) as [|z0 yl] eqn:Ey; [discriminate|]. injection HY as ->.
  assert (ER : end_record ev r = [(tE, y tE)]) by (unfold end_record; rewrite RI; reflexivity).
  assert (FL : fle (Fin 0) (Fin (e_inflating q t_i (y t_i))) = true) by (apply fle_true; exact I0).
  assert (NB : N_beg_of q ev r = (Fin Nb, e_H q t_i (y t_i))) by (unfold N_beg_of; rewrite RC, Et, Ey, FL; reflexivity).
  assert (NE : N_end_of q ev r = (Fin Ne, Fin (T_phi te y tE), e_H q tE (y tE), Fin (pV U (T_phi te y tE)))) by (unfold N_end_of; rewrite ER; reflexivity).
  assert (HF : forall n, a < n < b -> e_H q n (y n) = Fin (T_Hub K U te y n)).
  { intros n Hn. destruct (proj2 B n Hn) as (HP & _). unfold e_H. change (e_H2 q n (y n)) with (T_H2 K U te n (y n)). rewrite fsqrt_fin by lra. reflexivity. }
  rewrite RC, ER, FL in ES. cbn [orb app] in ES. exists s. split; [exact ES|].
  unfold solved in SO. rewrite NB, NE in SO. cbn [fst snd] in SO. rewrite !HF in SO by lra. rewrite Et, Ey, ZW in SO.
  destruct SO as (G1 & G2 & _ & G4 & G5 & G6 & G7 & _ & G9 & _ & G11 & _ & _ & _ & G15).
  repeat (split; [assumption|]).
  exists (map (fun n => (flt (Fin Nb) n && flt n (Fin Ne))%bool) (map Fin Ns)). split; [rewrite G15; reflexivity|].
  split; [rewrite !map_length; reflexivity|]. intros i n m Q1 Q2. rewrite map_map, nth_error_map, Q1 in Q2. cbn in Q2. injection Q2 as <-.
  unfold flt. destruct (Rlt_dec Nb n), (Rlt_dec n Ne); cbn; split; intros; try discriminate; try lra; try reflexivity; lra.
Qed.
End ReportsT.
