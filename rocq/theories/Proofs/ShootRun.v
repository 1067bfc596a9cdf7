(** An exact run of the shooting problem of ISIC_Nt in a flat universe, e-folds (used for C127). *)
From Coq Require Import Reals List String Lra Lia Classical ZArith.
From Coquelicot Require Import Coquelicot.
From Verif Require Import Base Model.Potentials Model.SlowRoll Model.Equations Model.Background Model.Float Model.Solution Model.InitCond Model.Events
  Spec.PotentialSpec Spec.SlowRollSpec Spec.BackgroundSpec Spec.SolutionSpec Spec.ExactRun Proofs.PhiEnd Proofs.SRN Proofs.Bracket Proofs.BackgroundT Proofs.BackgroundN Proofs.BackgroundTN Proofs.BackgroundEx Proofs.FloatLemmas Proofs.Unique
  Proofs.PostProc Proofs.SlowRollBound Proofs.Roll Proofs.RollEnd Proofs.FastRoll Proofs.StartCont Proofs.StartMono Properties.BackgroundProps Properties.InitProps Properties.UniqueProps Properties.SlowRollBoundProps Properties.ExistenceProps Properties.InflationEndsProps
  Properties.StartEndsProps.
Import ListNotations.
Open Scope R_scope.

(** InflationStartIC starts, when the tracked clocks are given *)
Lemma is_start_ok U tm te phi t eta xe n : 0 < pV U phi -> ~ missing (IN 0 U tm te) t eta -> exists ic ic' y1,
  is_init (IN 0 U tm te) phi t eta xe (kw_of (InN n)) = Ok ic /\ ic_N ic = Fin n /\
  (forall y0, List.length y0 = List.length (N_idx tm te) -> is_call ic y0 = Ok (ic', map Fin y1)) /\ ic_x_ini ic' = Some (Some (Fin n)).
Proof.
  intros HV NM. pose proof (exp_pos (2 * n)) as EP. assert (HA : 0 < pV U phi / 2 * exp (2 * n) - 0) by (rewrite Rminus_0_r; apply Rmult_lt_0_compat; lra).
  pose proof (is_from_N (IN 0 U tm te) phi t eta xe n HA) as E.
  assert (Q : 0 < pV U phi / 2 - 0 * exp (-2 * n)) by lra. assert (S0 : 0 < sqrt (pV U phi / 2 - 0 * exp (-2 * n))) by (apply sqrt_lt_R0; exact Q).
  cbn [ie_U ie_K] in E.
  destruct (is_call_spec (IN 0 U tm te) phi t eta xe (InN n) (Fin n) (Fin (- 0 / (pV U phi / 2 * exp (2 * n) - 0))) (Fin (sqrt (pV U phi / 2 * exp (2 * n) - 0))) (Fin (sqrt (pV U phi / 2 - 0 * exp (-2 * n)))) eq_refl) as [_ C].
  destruct (C NM) as (yy & F & G). eexists. eexists.
  assert (Y : exists y1, yy = map Fin y1).
  { specialize (G (repeat (Fin 0) (List.length (N_idx tm te))) (repeat_length _ _)). unfold is_call, is_obj in G. cbn [ic_eqs ic_dphi ic_N ic_phi ic_eta ic_t ic_V ic_H ic_O ic_aH ic_input ic_x_end ie_te ie_idx ie_U ie_K] in G.
    rewrite (fsqrt_fin (pV U phi)) in G by lra. cbn [fneg] in G. rewrite fdiv_fin in G by lra.
    destruct tm, te, t as [t|], eta as [eta|]; try (exfalso; apply NM; cbn; auto; fail); cbn in G; injection G as _ <-;
      match goal with |- exists y1, ?l = _ => first [
        match l with [Fin ?a; Fin ?b; Fin ?c; Fin ?d] => exists [a; b; c; d]; reflexivity end |
        match l with [Fin ?a; Fin ?b; Fin ?c] => exists [a; b; c]; reflexivity end |
        match l with [Fin ?a; Fin ?b] => exists [a; b]; reflexivity end ] end. }
  destruct Y as (y1 & Y). exists y1. split; [exact E|]. split; [reflexivity|]. split; [intros y0 L; rewrite <- Y; apply G, L|reflexivity].
Qed.

Lemma last_map_nn {A B} (f : A -> B) l d d' : l <> [] -> last (map f l) d' = f (last l d).
Proof. intros H. destruct (exists_last H) as (l' & x & ->). rewrite map_app. cbn [map]. rewrite !last_last. reflexivity. Qed.
Lemma zipw_fst {B} (l : list R) (m : list B) : List.length l = List.length m -> zipw (fun x _ => x) l m = l.
Proof. revert m. induction l as [|x l IH]; intros [|y m] H; try discriminate; [reflexivity|]. cbn [zipw]. f_equal. apply IH. cbn in H. congruence. Qed.
Lemma all_same (l : list R) T : NoDup l -> (forall t, In t l -> t = T) -> l = [] \/ l = [T].
Proof.
  intros N H. destruct l as [|x [|x' l] ]; [left; reflexivity|right; rewrite (H x); [reflexivity|left; reflexivity]|]. exfalso.
  inversion N as [|? ? NI ?]; subst. apply NI. left. rewrite (H x), (H x'); [reflexivity|right; left; reflexivity|left; reflexivity].
Qed.

Section Run.
Variables (P : pot) (L e N_i : R) (tm te : bool).
Let U := potfun_of P L.
Hypotheses (HF : featureless P) (HV : valid P) (HL : L <> 0) (HD : dw_ge1 P).
Hypotheses (Be : branch P e) (Ee : eps1V P e = 1).
Variables (phi M W x_end : R) (y : R -> list R) (a b : R).
Hypotheses (HB : branch P phi) (LE : e < phi) (M0 : 0 < M) (B : N_background 0 U tm te y a b) (A1 : a < N_i) (A2 : N_i + M < b).
Hypotheses (E1 : N_phi tm te y N_i = phi) (E2 : N_dphi tm te y N_i = - sqrt 2)
  (I1 : forall n, N_i < n < N_i + M -> 0 < N_inflating 0 U tm te n (y n)) (Z : N_inflating 0 U tm te (N_i + M) (y (N_i + M)) = 0).
Let E := N_i + M.

(** inflation ends by a proper sign change of the indicator *)
Lemma run_falls : falls_through (fun s => N_inflating 0 U tm te s (y s)) E.
Proof.
  assert (S2 : sqrt 2 * sqrt 2 = 2) by (apply sqrt_sqrt; lra). assert (S0 : 0 < sqrt 2) by (apply sqrt_lt_R0; lra).
  pose proof (ld_end P L e N_i HF HV HL HD Be Ee phi M (fun s => [N_phi tm te y s; N_dphi tm te y s]) a b HB LE M0 (N_proj 0 U tm te y a b B) A1 A2 ltac:(cbv beta; rewrite E1, E2; reflexivity) I1 Z) as (VE & LM & _).
  change (N_dphi tm te y E = - sqrt 2) in VE. change (sqrt 2 < dV P L (N_phi tm te y E) / V P L (N_phi tm te y E)) in LM.
  destruct (flat_flow P L tm te y a b B E ltac:(unfold E; lra)) as (_ & D2). cbv zeta in D2. rewrite VE in D2. set (lm := dV P L (N_phi tm te y E) / V P L (N_phi tm te y E)) in *.
  assert (SQ : (- sqrt 2)^2 = 2) by (replace ((- sqrt 2)^2) with (sqrt 2 * sqrt 2) by ring; exact S2). rewrite SQ in D2.
  assert (D3 : is_derive (fun s => - N_dphi tm te y s - sqrt 2) E (2 * (lm - sqrt 2))).
  { pose proof (is_derive_sub (fun s => - N_dphi tm te y s) (fun _ => sqrt 2) E _ 0 (@is_derive_opp R_AbsRing R_NormedModule _ _ _ D2) (is_derive_const (sqrt 2) E)) as D4.
    eapply is_derive_eq; [exact D4|]. cbn. toR. field. }
  assert (DZ : - N_dphi tm te y E - sqrt 2 = 0) by (rewrite VE; ring).
  destruct (crosses (fun s => - N_dphi tm te y s - sqrt 2) E _ D3 ltac:(lra) DZ) as (d & Hd & BEF & AFT). cbv beta in BEF, AFT.
  split; [cbv beta; unfold E; rewrite Z; ring|]. exists (Rmin d (Rmin M (b - E))).
  pose proof (Rmin_l d (Rmin M (b - E))). pose proof (Rmin_r d (Rmin M (b - E))). pose proof (Rmin_l M (b - E)). pose proof (Rmin_r M (b - E)).
  split; [apply Rmin_glb_lt; [lra|apply Rmin_glb_lt; unfold E; lra]|]. intros s. split; intros Hs.
  - pose proof (I1 s ltac:(unfold E in *; lra)). lra.
  - destruct (flat_infl P L tm te y a b B s ltac:(unfold E in *; lra)) as (h2 & HH2 & Q). unfold U. rewrite Q. pose proof (AFT s ltac:(lra)) as X. set (v := N_dphi tm te y s) in *. clearbody v.
    assert (2 < v^2) by nra. nra.
Qed.

Hypotheses (W0 : 0 < W) (XE : N_i + W + 10 < x_end).
Variable r : raw_sol.
Let until := N_i + W + 10.
Hypothesis RUN : exact_run 0 U tm te N_i x_end (y N_i) (shoot_events until) r.
Let q := IN 0 U tm te.

Lemma shoot_core : shoot_contract q until r /\ recorded is_collapse (shoot_events until) r = [] /\
  hd_error (r_t r) = Some N_i /\ hd_error (r_y r) = Some (y N_i) /\
  ((exists z', recorded (is_inflation (-1) true) (shoot_events until) r = [(E, z')] /\ M <= W + 10) \/
   (recorded (is_inflation (-1) true) (shoot_events until) r = [] /\ recorded is_untilN (shoot_events until) r <> [] /\ W + 10 <= M)).
Proof.
  destruct RUN as (z & a' & b' & T & Bz & A1' & A2' & Ez & HT & HH & HLt & RY & LEN & RE & EV & STOP).
  destruct (r_t_events r) as [|t0 [|t1 [|t2 [|t3 [|] ] ] ] ] eqn:TE; try discriminate LEN. clear LEN.
  destruct (EV 1%nat _ _ eq_refl eq_refl) as (ND1 & S1 & C1). destruct (EV 2%nat _ _ eq_refl eq_refl) as (ND2 & S2 & C2). destruct (EV 3%nat _ _ eq_refl eq_refl) as (ND3 & S3 & C3).
  cbn [event_call event_terminal event_direction] in S1, C1, S2, C2, S3, C3. cbn [e_inflating e_N e_H2 N_eqs] in S1, C1, S2, C2, S3, C3.
  assert (EQ : forall n, N_i <= n <= E -> n < b' -> z n = y n).
  { intros n Hn Hb. symmetry. apply (C110_efolds 0 U tm te y z a b a' b' N_i B Bz); unfold E in *; try lra. symmetry; exact Ez. }
  (* no collapse *)
  assert (T3 : t3 = []).
  { destruct t3 as [|t t3]; [reflexivity|]. exfalso. destruct (S3 t (or_introl eq_refl)) as (X1 & X2 & _). destruct (proj2 Bz t ltac:(lra)) as (X3 & _). lra. }
  subst t3.
  (* the run does not go past the end of inflation *)
  assert (TE1 : T <= E).
  { apply Rnot_lt_le. intros X. assert (IN1 : In E t1).
    { apply C1; [unfold E in *; lra|]. right. split; [lia|]. destruct run_falls as (F0 & d & Hd & F). split; [rewrite Rminus_0_r, EQ by (unfold E in *; lra); exact F0|].
      exists (Rmin d (Rmin M (Rmin (b - E) (b' - E)))).
      pose proof (Rmin_l d (Rmin M (Rmin (b - E) (b' - E)))). pose proof (Rmin_r d (Rmin M (Rmin (b - E) (b' - E)))). pose proof (Rmin_l M (Rmin (b - E) (b' - E))). pose proof (Rmin_r M (Rmin (b - E) (b' - E))).
      pose proof (Rmin_l (b - E) (b' - E)). pose proof (Rmin_r (b - E) (b' - E)).
      split; [repeat apply Rmin_glb_lt; unfold E in *; lra|]. intros s. assert (EQ2 : N_i <= s -> s < b -> s < b' -> z s = y s).
      { intros Q1 Q2 Q3. symmetry. apply (C110_efolds 0 U tm te y z a b a' b' N_i B Bz); try lra. symmetry; exact Ez. }
      split; intros Hs; rewrite Rminus_0_r; (rewrite EQ2 by (unfold E in *; lra)); apply (F s); unfold E in *; lra. }
    destruct (S1 E IN1) as (_ & _ & Q). specialize (Q eq_refl). lra. }
  (* nor past the e-fold number at which the shooting gives up *)
  assert (TU : T <= until).
  { apply Rnot_lt_le. intros X. assert (IN2 : In until t2).
    { apply C2; [unfold until in *; lra|]. left. split; [lia|]. split; [ring|]. exists 1. split; [lra|]. intros s. split; intros Hs; lra. }
    destruct (S2 until IN2) as (_ & _ & Q). specialize (Q eq_refl). lra. }
  assert (G0 : forall t, N_i < t <= T -> N_inflating 0 U tm te t (z t) - 0 = 0 -> t = E).
  { intros t Ht Q. destruct (Req_dec t E) as [|NE]; [assumption|]. exfalso. pose proof (I1 t ltac:(unfold E in *; lra)) as X. rewrite EQ in Q by (unfold E in *; lra). lra. }
  assert (R1 : forall t, In t t1 -> t = T) by (intros t Ht; destruct (S1 t Ht) as (_ & _ & Q); exact (Q eq_refl)).
  assert (R2 : forall t, In t t2 -> t = T) by (intros t Ht; destruct (S2 t Ht) as (_ & _ & Q); exact (Q eq_refl)).
  destruct (all_same t1 T ND1 R1) as [X1|X1]; destruct (all_same t2 T ND2 R2) as [X2|X2].
  { exfalso. destruct STOP as [STOP|(i & ev & ts & N1 & N2 & N3 & N4)]; [unfold until in *; lra|].
    destruct i as [|[|[|[|i] ] ] ]; cbn in N1, N2; try discriminate; try (destruct i; discriminate); injection N1 as <-; injection N2 as <-; [discriminate N3|rewrite X1 in N4; exact N4|rewrite X2 in N4; exact N4|exact N4]. }
  all: assert (NE : r_t r <> []) by (intros Q; rewrite Q in HH; discriminate).
  all: assert (IV : ivp_ok (List.length (ie_idx q)) 4 r) by (split; [exact NE|]; split; [rewrite RY, map_length; reflexivity|]; rewrite TE, RE; split; [reflexivity|]; split; [reflexivity|];
    intros [|[|[|[|[|j] ] ] ] ] ta ya Q1 Q2; cbn in Q1, Q2; try discriminate; injection Q1 as <-; injection Q2 as <-; rewrite ?map_length; reflexivity).
  all: assert (NL : N_last q r = T) by (unfold N_last, efolds; cbn [eqs_ie q]; change (e_N (N_eqs 0 U tm te)) with (fun (x : R) (_ : list R) => x); rewrite zipw_fst by (rewrite RY, map_length; reflexivity);
    rewrite <- HLt; destruct (exists_last NE) as (l' & x & ->); rewrite !last_last; reflexivity).
  all: assert (HY : hd_error (r_y r) = Some (y N_i)) by (rewrite RY; destruct (r_t r) as [|x l]; [discriminate|]; cbn in HH |- *; injection HH as ->; rewrite Ez; reflexivity).
  all: assert (RC : recorded is_collapse (shoot_events until) r = []) by (unfold recorded; rewrite TE, RE; reflexivity).
  all: assert (RU : recorded is_untilN (shoot_events until) r = combine t2 (map z t2)) by (unfold recorded; rewrite TE, RE; reflexivity).
  all: assert (RI : recorded (is_inflation (-1) true) (shoot_events until) r = combine t1 (map z t1)) by (unfold recorded; rewrite TE, RE; reflexivity).
  all: rewrite RI, RU, X1, X2; cbn [map combine].
  all: split; [split; [exact IV|]; split; [rewrite RU, X2; cbn [map combine]; intros Q; first [exfalso; apply Q; reflexivity|rewrite NL; destruct (S2 T) as (_ & Q2 & _); [rewrite X2; left; reflexivity|lra] ]|rewrite RI, X1; cbn; lia] |].
  all: split; [exact RC|]; split; [exact HH|]; split; [exact HY|].
  - right. split; [reflexivity|]. split; [discriminate|]. destruct (S2 T) as (_ & Q2 & _); [rewrite X2; left; reflexivity|]. unfold until, E in *; lra.
  - left. destruct (S1 T) as (_ & Q1 & _); [rewrite X1; left; reflexivity|]. pose proof (G0 T ltac:(lra) Q1) as TE2. exists (z T). split; [rewrite <- TE2; reflexivity|]. unfold until, E in *; lra.
  - left. destruct (S1 T) as (_ & Q1 & _); [rewrite X1; left; reflexivity|]. pose proof (G0 T ltac:(lra) Q1) as TE2. exists (z T). split; [rewrite <- TE2; reflexivity|]. unfold until, E in *; lra.
Qed.
End Run.
