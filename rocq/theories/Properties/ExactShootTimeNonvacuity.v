(** C127 in cosmic time, C128: an integrator that meets the hypotheses. *)
From Coq Require Import Reals List String Lra Lia Classical ZArith.
From Coquelicot Require Import Coquelicot.
From Verif Require Import Base Model.Potentials Model.SlowRoll Model.Equations Model.Background Model.Float Model.Solution Model.InitCond Model.Events
  Spec.PotentialSpec Spec.SlowRollSpec Spec.BackgroundSpec Spec.SolutionSpec Spec.ExactRun Spec.ExactRunT Proofs.PhiEnd Proofs.SRN Proofs.Bracket Proofs.BackgroundT Proofs.BackgroundN Proofs.BackgroundEx Proofs.FloatLemmas Proofs.Unique
  Proofs.SolLemmas Proofs.PostProc Proofs.SlowRollBound Proofs.Roll Proofs.RollEnd Proofs.FastRoll Proofs.StartCont Proofs.StartMono Proofs.ShootRun Proofs.ShootRunT Properties.BackgroundProps Properties.InitProps Properties.UniqueProps Properties.BracketProps Properties.EndNonvacuity
  Properties.StartEndsProps Properties.StartEndsNonvacuity Properties.StartContProps Properties.ExactShootProps Properties.ExactShootNonvacuity Properties.ExactShootTimeProps.
Import ListNotations.
Open Scope R_scope.
Open Scope string_scope.

Definition at_T (U : potfun) (y0 : list R) (t : R) (i : nat) : R :=
  real (Lub_Rbar (fun v => exists z a b, T_background 0 U false z a b /\ a < 0 /\ 0 <= t < b /\ z 0 = y0 /\ v = nth i (z t) 0)).
Lemma at_T_ok U y0 y a b t i : T_background 0 U false y a b -> a < 0 -> 0 <= t < b -> y 0 = y0 -> at_T U y0 t i = nth i (y t) 0.
Proof.
  intros B A1 A2 Ey. unfold at_T. rewrite (is_lub_Rbar_unique _ (nth i (y t) 0)); [reflexivity|]. split.
  - intros v (z & a' & b' & Bz & A1' & A2' & Ez & ->). cbn. right. f_equal. apply (C110_time 0 U false z y a' b' a b 0 Bz B); try lra. congruence.
  - intros l UB. apply UB. exists y, a, b. split; [exact B|]. split; [exact A1|]. split; [exact A2|]. split; [exact Ey|reflexivity].
Qed.
(** the time the run takes: until inflation ends or the e-fold number [until] is reached *)
Definition stop_T (U : potfun) (y0 : list R) (until : R) : R :=
  real (Lub_Rbar (fun t => exists z a b, T_background 0 U false z a b /\ a < 0 /\ 0 <= t < b /\ z 0 = y0 /\ (forall s, 0 < s < t -> 0 < T_inflating U false s (z s)) /\ T_N false z t <= until)).
Lemma stop_T_ok U y0 y a b T until : T_background 0 U false y a b -> a < 0 -> 0 < T < b -> y 0 = y0 -> (forall s, 0 < s < T -> 0 < T_inflating U false s (y s)) ->
  T_N false y T <= until -> T_inflating U false T (y T) = 0 \/ T_N false y T = until -> stop_T U y0 until = T.
Proof.
  intros B A1 A2 Ey I LE ST. unfold stop_T. rewrite (is_lub_Rbar_unique _ T); [reflexivity|]. split.
  - intros t (z & a' & b' & Bz & A1' & A2' & Ez & I' & LE'). cbn. apply Rnot_lt_le. intros X.
    assert (EQ : z T = y T) by (apply (C110_time 0 U false z y a' b' a b 0 Bz B); try lra; congruence).
    destruct ST as [ST|ST].
    + pose proof (I' T ltac:(lra)) as Q. rewrite EQ in Q. lra.
    + pose proof (T_N_lt U false z a' b' T t Bz ltac:(lra) X ltac:(lra)) as Q. unfold T_N in Q at 1. rewrite EQ in Q. change (T_N false y T < T_N false z t) in Q. lra.
  - intros l UB. apply UB. exists y, a, b. split; [exact B|]. split; [exact A1|]. split; [lra|]. split; [exact Ey|]. split; [exact I|exact LE].
Qed.

(** the exact integrator of the shooting runs in a flat universe in cosmic time without conformal time, starting at t = 0 *)
Definition exact_ivp_T (P : pot) (L : R) : integrator := fun _ _ _ y0 events =>
  let until := match events with [_; _; UntilN u; _] => u | _ => 0 end in
  let U := potfun_of P L in let state t := [at_T U y0 t 0; at_T U y0 t 1; at_T U y0 t 2] in
  let T := stop_T U y0 until in
  if Rlt_dec (at_T U y0 T 2) until
  then (mkraw [0; T] [state 0; state T] [[]; [T]; []; []] [[]; [state T]; []; []], false)
  else (mkraw [0; T] [state 0; state T] [[]; []; [T]; []] [[]; []; [state T]; []], false).

Section Exact.
Variables (P : pot) (L e : R).
Let U := potfun_of P L.
Hypotheses (HF : featureless P) (HV : valid P) (HL : L <> 0) (HD : dw_ge1 P).
Hypotheses (Be : branch P e) (Ee : eps1V P e = 1) (Ne : Nfun P e e = 0).
Lemma exact_ivp_T_ok W x_end phi : branch P phi -> e < phi -> 0 < W -> t_budget P L phi phi < x_end -> exact_from_T (exact_ivp_T P L) U false 0 None x_end 0 W phi.
Proof.
  intros HB LE W0 XE ic ic' y1 SI SC. destruct (branch_pos P L phi HF HV HL HB) as [V0 V1].
  destruct (is_start_T U false phi (Some 0) None x_end 0 ic (repeat (Fin 0) (List.length (T_idx false))) ic' y1 V0 SI eq_refl SC) as (E1 & E2 & E3 & L1).
  destruct (lasts_ex P L e 0 HF HV HL HD Be Ee phi Ne HB LE) as (M & DM).
  destruct (time_core P L e 0 0 false HF HV HL HD Be Ee Ne phi M y1 HB LE DM E1 E2 E3 L1) as (y & a & b & tE & A1 & A2 & B & Ey & _ & _ & I3 & Z & _ & N1 & N2 & TB).
  change (potfun_of P L) with U in B, I3, Z. clear E1 E2 E3 L1 SC SI. pose proof (proj1 DM) as M0. rewrite Rplus_0_l in N2. set (until := 0 + W + 10).
  (* where the run stops *)
  assert (HT : exists T, 0 < T <= tE /\ T_N false y T <= until /\ ((T = tE /\ T_N false y T < until) \/ T_N false y T = until)).
  { destruct (Rlt_dec M until) as [X|X]; [exists tE; split; [lra|]; split; [lra|left; split; [reflexivity|lra] ]|].
    destruct (ivt (T_N false y) 0 tE until ltac:(lra)) as (u & Hu & NU).
    - apply (deriv_cont _ (T_Hub 0 U false y)). intros s Hs. apply (T_comps 0 U false y a b B s ltac:(lra)).
    - rewrite Rmin_left, Rmax_right by lra. unfold until in *; lra.
    - exists u. assert (u <> 0) by (intros ->; unfold until in *; lra). split; [lra|]. split; [lra|right; exact NU]. }
  destruct HT as (T & HT & NT & ST).
  assert (IN : forall s, 0 < s < T -> 0 < T_inflating U false s (y s)) by (intros s Hs; apply I3; lra).
  assert (ES : stop_T U y1 until = T).
  { apply (stop_T_ok U y1 y a b T until B); try lra; [exact Ey|exact IN|]. destruct ST as [ [-> _] |ST]; [left; exact Z|right; exact ST]. }
  assert (SY : forall t, 0 <= t <= tE -> [at_T U y1 t 0; at_T U y1 t 1; at_T U y1 t 2] = y t).
  { intros t Ht. rewrite (at_T_ok U y1 y a b t 0 B) by (try lra; exact Ey). rewrite (at_T_ok U y1 y a b t 1 B) by (try lra; exact Ey). rewrite (at_T_ok U y1 y a b t 2 B) by (try lra; exact Ey).
    destruct (proj1 B t ltac:(lra)) as [LL _]. cbn in LL. destruct (len3 (y t) LL) as (u & p & n & ->). reflexivity. }
  assert (A2T : at_T U y1 T 2 = T_N false y T) by (rewrite (at_T_ok U y1 y a b T 2 B) by (try lra; exact Ey); reflexivity).
  unfold exact_ivp_T. cbn [shoot_events]. fold until. change (potfun_of P L) with U. cbv zeta. rewrite ES, !SY by lra. rewrite A2T.
  assert (NI : forall t, 0 < t < T -> ~ passes 1 (fun s => T_inflating U false s (y s) - 0) t /\ ~ passes (-1) (fun s => T_inflating U false s (y s) - 0) t).
  { intros t Ht. pose proof (IN t Ht) as X. split; intros [ (_ & Q & _) | (_ & Q & _) ]; lra. }
  assert (NU : forall t, 0 < t < T -> T_N false y t - until <> 0).
  { intros t Ht Q. pose proof (T_N_lt U false y a b t T B ltac:(lra) ltac:(lra) ltac:(lra)). lra. }
  assert (NC : forall t, 0 <= t <= T -> T_H2 0 U false t (y t) - 0 <> 0) by (intros t Ht; destruct (proj2 B t ltac:(lra)) as (Q & _); lra).
  assert (TX : 0 < T <= x_end) by lra.
  destruct (Rlt_dec (T_N false y T) until) as [C|C]; cbn [fst].
  - assert (ET : T = tE) by (destruct ST as [ [X _] |X]; [exact X|lra]). 
    exists y, a, b, T. split; [exact B|]. split; [lra|]. split; [lra|]. split; [exact Ey|]. split; [exact TX|]. split; [reflexivity|]. split; [reflexivity|]. split; [reflexivity|]. split; [reflexivity|]. split; [reflexivity|]. split.
    + intros [|[|[|[|[|i] ] ] ] ] ev ts P1 P2; cbn in P1, P2; try discriminate; injection P1 as <-; injection P2 as <-; cbn [event_call event_terminal event_direction]; cbn [e_inflating e_N e_H2 T_eqs].
      * split; [constructor|]. split; [intros t []|]. intros t Ht Q. destruct (NI t Ht) as (X & _). exact (X Q).
      * split; [constructor; [intros []|constructor]|]. split; [intros t [<-|[] ]; split; [lra|]; split; [rewrite ET, Z; ring|reflexivity]|]. intros t Ht Q. destruct (NI t Ht) as (_ & X). destruct (X Q).
      * split; [constructor|]. split; [intros t []|]. intros t Ht [ (_ & Q & _) | (_ & Q & _) ]; exfalso; [|change (- (T_N false y t - until) = 0) in Q]; apply (NU t Ht); [exact Q|lra].
      * split; [constructor|]. split; [intros t []|]. intros t Ht [ (_ & Q & _) | (_ & Q & _) ]; exfalso; apply (NC t ltac:(lra)); lra.
    + right. exists 1%nat, (Inflation (-1) true 0 None), [T]. split; [reflexivity|]. split; [reflexivity|]. split; [reflexivity|left; reflexivity].
  - assert (ET : T_N false y T = until) by (destruct ST as [ [_ X] |X]; [lra|exact X]). 
    exists y, a, b, T. split; [exact B|]. split; [lra|]. split; [lra|]. split; [exact Ey|]. split; [exact TX|]. split; [reflexivity|]. split; [reflexivity|]. split; [reflexivity|]. split; [reflexivity|]. split; [reflexivity|]. split.
    + intros [|[|[|[|[|i] ] ] ] ] ev ts P1 P2; cbn in P1, P2; try discriminate; injection P1 as <-; injection P2 as <-; cbn [event_call event_terminal event_direction]; cbn [e_inflating e_N e_H2 T_eqs].
      * split; [constructor|]. split; [intros t []|]. intros t Ht Q. destruct (NI t Ht) as (X & _). exact (X Q).
      * split; [constructor|]. split; [intros t []|]. intros t Ht Q. destruct (NI t Ht) as (_ & X). exact (X Q).
      * split; [constructor; [intros []|constructor]|]. split; [intros t [<-|[] ]; split; [lra|]; split; [change (T_N false y T - until = 0); rewrite ET; ring|reflexivity]|]. intros t Ht [ (_ & Q & _) | (_ & Q & _) ]; exfalso; [|change (- (T_N false y t - until) = 0) in Q]; apply (NU t Ht); [exact Q|lra].
      * split; [constructor|]. split; [intros t []|]. intros t Ht [ (_ & Q & _) | (_ & Q & _) ]; exfalso; apply (NC t ltac:(lra)); lra.
    + right. exists 2%nat, (UntilN until), [T]. split; [reflexivity|]. split; [reflexivity|]. split; [reflexivity|left; reflexivity].
Qed.
End Exact.

(** ISIC_Nt for 20 e-folds of quadratic inflation in cosmic time, bracket [6, 10] *)
Theorem C127_time_nonvacuous : forall fmt_e x_end, 50 * (sqrt (3 / 36) * exp (1 / 2 + 50)) < x_end -> exists ic ic' y1 phi t_end,
  (forall s, 6 <= s <= 10 -> exact_from_T (exact_ivp_T Quadratic 1) (potfun_of Quadratic 1) false 0 None x_end 0 20 s) /\
  nt_init (IT 0 (potfun_of Quadratic 1) false) [6; 10] (Some 0) None x_end (kw_of (InN 0)) = Ok ic /\
  nt_call fmt_e (exact_ivp_T Quadratic 1) sup_find true ic 20 [6; 10] [Fin 0; Fin 0; Fin 0] = Ok (ic', map Fin y1, phi) /\ 6 <= phi <= 10 /\ 0 < t_end < x_end /\
  exists y a b, T_background 0 (potfun_of Quadratic 1) false y a b /\ a < 0 /\ t_end < b /\ y 0 = y1 /\
    (forall t, 0 < t < t_end -> 0 < T_inflating (potfun_of Quadratic 1) false t (y t)) /\ T_inflating (potfun_of Quadratic 1) false t_end (y t_end) = 0 /\
    T_N false y t_end - T_N false y 0 = 20.
Proof.
  intros fmt_e x_end XE. destruct C125_nonvacuous as (root & HR & PE & _ & _ & LO & N & SR & HI). pose proof sq2 as S2.
  pose proof (phi_end_branch root Quadratic 1 (sqrt 2) HR I I ltac:(lra) ltac:(discriminate) PE) as Be. destruct (phi_end_spec root Quadratic 1 (sqrt 2) HR I I ltac:(lra) PE) as [_ Ee].
  pose proof (Nfun_end root Quadratic 1 (sqrt 2) I I PE) as Ne.
  assert (HD : dw_ge1 Quadratic) by (intros p phi0 Q; discriminate Q).
  assert (BU : t_budget Quadratic 1 6 10 < x_end).
  { unfold t_budget. replace (10 * (V Quadratic 1 10 / dV Quadratic 1 10)) with 50 by (unfold V, dV, quad_V, quad_dV; field). replace (V Quadratic 1 6) with 36 by (unfold V, quad_V; ring). exact XE. }
  assert (EX : forall s, 6 <= s <= 10 -> exact_from_T (exact_ivp_T Quadratic 1) (potfun_of Quadratic 1) false 0 None x_end 0 20 s).
  { intros s Hs. apply (exact_ivp_T_ok Quadratic 1 (sqrt 2) I I ltac:(lra) HD Be Ee Ne); [cbn; lra|lra|lra|].
    eapply Rle_lt_trans; [apply (t_budget_mono Quadratic 1 (sqrt 2) 6 s 10 I I ltac:(lra) HD Be Ee); [cbn; lra..|lra|lra]|exact BU]. }
  assert (NM : ~ missing (IT 0 (potfun_of Quadratic 1) false) (Some 0) None) by (intros [Q _]; discriminate).
  destruct (C127_time_shooting root Quadratic 1 (sqrt 2) 6 10 20 N false 0 None x_end 0 (exact_ivp_T Quadratic 1) true fmt_e HR I I ltac:(intros; discriminate) ltac:(discriminate) ltac:(lra) PE
    ltac:(cbn; lra) ltac:(cbn; lra) ltac:(lra) ltac:(lra) ltac:(lra) ltac:(rewrite Rminus_0_r; exact BU) NM LO SR HI EX 1 ltac:(lra)) as (delta & Hd & W).
  destruct (W 0 sup_find ltac:(lra) (sup_find_ok 0 ltac:(lra))) as (ic & SI & W2). destruct (W2 [Fin 0; Fin 0; Fin 0] eq_refl) as (ic' & y1 & phi & M & t_end & CALL & Hp & _ & _ & EM & TE & (y & a & b & B & A1 & A2 & Ey) & W3).
  rewrite (EM eq_refl) in *. destruct (W3 y a b B ltac:(lra) Ey) as (_ & J1 & J2). destruct (J2 ltac:(lra)) as (J3 & J4).
  exists ic, ic', y1, phi, t_end. split; [exact EX|]. split; [exact SI|]. split; [exact CALL|]. split; [exact Hp|]. split; [exact TE|].
  exists y, a, b. split; [exact B|]. split; [lra|]. split; [lra|]. split; [exact Ey|]. split; [intros t Ht; apply J1; lra|]. split; [exact J3|exact J4].
Qed.
(** C128 applies to quadratic inflation from phi = 10 *)
Theorem C128_nonvacuous : exists root ic ic' y1, root_spec root /\ phi_end root Quadratic 1 = Ok (sqrt 2) /\ sqrt 2 < 10 /\ branch Quadratic 10 /\
  is_init (IT 0 (potfun_of Quadratic 1) false) 10 (Some 0) None 1 (kw_of (InN 0)) = Ok ic /\ is_call ic [Fin 0; Fin 0; Fin 0] = Ok (ic', map Fin y1).
Proof.
  destruct C125_nonvacuous as (root & HR & PE & _). pose proof sq2 as S2.
  destruct (is_start_ok_T (potfun_of Quadratic 1) false 10 0 None 1 0) as (ic & ic' & y1 & SI & _ & SC & _); [cbn; unfold V, quad_V; lra|intros [Q _]; discriminate|].
  exists root, ic, ic', y1. split; [exact HR|]. split; [exact PE|]. split; [lra|]. split; [cbn; lra|]. split; [exact SI|]. apply SC. reflexivity.
Qed.
