(** C92: what the events mean along the exact solutions, and what ends a run. *)
From Coq Require Import Reals List String ZArith Lra Lia Bool Classical.
From Coquelicot Require Import Coquelicot.
From Verif Require Import Base Model.Potentials Model.Equations Model.Background Model.Float Model.Solution Model.InitCond Model.Events
  Spec.BackgroundSpec Spec.SolutionSpec Spec.EventSpec Proofs.BackgroundT Proofs.BackgroundN Proofs.BackgroundEx
  Properties.BackgroundProps Properties.SolutionProps Properties.DynProps.
Import ListNotations.
Open Scope R_scope.
Open Scope string_scope.

Lemma active0 g1 g2 : active 0 g1 g2 <-> (g1 <= 0 <= g2 \/ g2 <= 0 <= g1).
Proof. unfold active, upward, downward. split; [intros [[A _]|[[A _]|[_ A]]]; [lia|lia|tauto]|intros A; right; right; split; [reflexivity|tauto]]. Qed.
Lemma activem g1 g2 : active (-1) g1 g2 <-> (g2 <= 0 <= g1).
Proof. unfold active, upward, downward. split; [intros [[A _]|[[_ A]|[A _]]]; [lia|tauto|lia]|intros A; right; left; split; [lia|tauto]]. Qed.
Lemma activep g1 g2 : active 1 g1 g2 <-> (g1 <= 0 <= g2).
Proof. unfold active, upward, downward. split; [intros [[_ A]|[[A _]|[A _]]]; [tauto|lia|lia]|intros A; left; split; [lia|tauto]]. Qed.

(** ** any states *)
(** CollapseEvent is active on a step exactly if H^2 changes sign on it; it cannot be in flat and open
    universes with a positive potential *)
Theorem C92_collapse : forall q x1 y1 x2 y2,
  (active (event_direction CollapseEvent0) (event_call q CollapseEvent0 x1 y1) (event_call q CollapseEvent0 x2 y2) <->
   e_H2 q x1 y1 * e_H2 q x2 y2 <= 0) /\
  event_terminal CollapseEvent0 = true.
Proof.
  intros q x1 y1 x2 y2. split; [|reflexivity]. cbn [event_direction CollapseEvent0 event_call]. rewrite active0, !Rminus_0_r.
  set (u := e_H2 q x1 y1). set (v := e_H2 q x2 y2). split; [intros; nra|]. intros Hm.
  destruct (Rle_dec u 0), (Rle_dec 0 v), (Rle_dec v 0), (Rle_dec 0 u); try tauto; exfalso; nra.
Qed.
(** the default events: InflationEvent only records every sign change of the acceleration, AfterInflationEndEvent stops
    the run when the equation of state rises through 0, Phi0Event when the field crosses 0, and ModeExitEvent when
    log(aH) crosses log(k), in either direction *)
Lemma sign_change u v : (u <= 0 <= v \/ v <= 0 <= u) <-> u * v <= 0.
Proof. split; [intros; nra|]. intros Hm. destruct (Rle_dec u 0), (Rle_dec 0 v), (Rle_dec v 0), (Rle_dec 0 u); try tauto; exfalso; nra. Qed.
Theorem C92_defaults : forall q x1 y1 x2 y2,
  let on e := active (event_direction e) (event_call q e x1 y1) (event_call q e x2 y2) in
  (on InflationEvent0 <-> e_inflating q x1 y1 * e_inflating q x2 y2 <= 0) /\ event_terminal InflationEvent0 = false /\
  (on AfterInflationEndEvent0 <-> e_w q x1 y1 <= 0 <= e_w q x2 y2) /\ event_terminal AfterInflationEndEvent0 = true /\
  (on Phi0Event0 <-> e_phi q x1 y1 * e_phi q x2 y2 <= 0) /\ event_terminal Phi0Event0 = true /\
  (forall k, (on (ModeExitEvent0 k) <-> (ln (Rabs (e_H2 q x1 y1)) / 2 + e_N q x1 y1 - ln k) * (ln (Rabs (e_H2 q x2 y2)) / 2 + e_N q x2 y2 - ln k) <= 0) /\
     event_terminal (ModeExitEvent0 k) = true).
Proof.
  intros q x1 y1 x2 y2 on. unfold on. cbn [event_direction event_terminal InflationEvent0 AfterInflationEndEvent0 Phi0Event0 ModeExitEvent0 event_call].
  rewrite !Rminus_0_r. setoid_rewrite active0. rewrite activep. setoid_rewrite sign_change. do 6 (split; [first [reflexivity|tauto]|]). intros k. split; [tauto|reflexivity].
Qed.
Theorem C92_no_collapse : forall q x1 y1 x2 y2, inflation_eqs q -> e_K q <= 0 ->
  (forall x y, 0 < e_V q (e_phi q x y)) ->
  (forall U tt te K, q = N_eqs K U tt te -> (var (N_idx tt te) "dphidN" y1)^2 < 6 /\ (var (N_idx tt te) "dphidN" y2)^2 < 6) ->
  ~ active (event_direction CollapseEvent0) (event_call q CollapseEvent0 x1 y1) (event_call q CollapseEvent0 x2 y2).
Proof.
  intros q x1 y1 x2 y2 IQ HK HV HN. rewrite (proj1 (C92_collapse q x1 y1 x2 y2)).
  assert (P : 0 < e_H2 q x1 y1 /\ 0 < e_H2 q x2 y2); [|nra].
  destruct IQ as [(K & U & te & ->)|(K & U & tm & te & ->)]; cbn in *.
  - split; unfold T_H2, T_get_H2; match goal with |- context [exp ?e] => pose proof (exp_pos e) end;
    match goal with |- context [var (T_idx te) "phi" ?y] => pose proof (HV 0 y) end; match goal with |- context [var (T_idx te) "dphidt" ?y] => pose proof (pow2_ge_0 (var (T_idx te) "dphidt" y)) end; nra.
  - destruct (HN U tm te K eq_refl) as [A1 A2].
    split; unfold N_H2, N_get_H2; apply Rdiv_lt_0_compat; try lra; match goal with |- context [exp ?e] => pose proof (exp_pos e) end;
    match goal with |- context [var (N_idx tm te) "phi" ?y] => pose proof (HV 0 y) end; nra.
Qed.

Lemma log_half h : 0 < h -> ln (Rabs h) / 2 = ln (sqrt h).
Proof.
  intros P. rewrite Rabs_pos_eq by lra. rewrite <- (sqrt_sqrt h) at 1 by lra. rewrite ln_mult by (apply sqrt_lt_R0; exact P). lra.
Qed.
Lemma ln_cmp u v : 0 < u -> 0 < v -> (ln u < ln v <-> u < v).
Proof. intros A B. split; [apply ln_lt_inv; assumption|apply ln_increasing; exact A]. Qed.
Lemma ln_cmpe u v : 0 < u -> 0 < v -> (ln u <= ln v <-> u <= v).
Proof. intros A B. split; intros X; destruct (Rle_lt_dec u v) as [Y|Y]; try assumption; [apply ln_increasing in Y; lra|destruct Y as [Y| ->]; [left; apply ln_increasing; lra|lra]|lra]. Qed.

Section Time.
Variables (K : R) (U : potfun) (te : bool) (y : R -> list R) (a b : R).
Hypothesis B : T_background K U te y a b.
Notation q := (T_eqs K U te).
(** the event function along the solution *)
Definition gT (e : event) (x : R) : R := event_call q e x (y x).
(** the scale factor and aH along the solution *)
Definition aT (x : R) : R := exp (T_N te y x).
Definition aHT (x : R) : R := aT x * T_Hub K U te y x.

Lemma gT_exit k d term x : a < x < b -> 0 < k -> gT (ModeExit d term k) x = T_logaH K U te y x - ln k.
Proof.
  intros Hx Hk. destruct (proj2 B x Hx) as [P _]. unfold gT, T_logaH, T_Hub. cbn [event_call T_eqs e_H2 e_N]. rewrite log_half by exact P. unfold T_N. lra.
Qed.
Lemma logaH_T x : a < x < b -> T_logaH K U te y x = ln (aHT x).
Proof.
  intros Hx. destruct (T_pos K U te y a b B x Hx) as [HP _]. unfold T_logaH, aHT, aT. rewrite ln_mult by (exact HP || apply exp_pos). rewrite ln_exp. reflexivity.
Qed.
Lemma aHT_pos x : a < x < b -> 0 < aHT x.
Proof. intros Hx. destruct (T_pos K U te y a b B x Hx) as [HP _]. apply Rmult_lt_0_compat; [apply exp_pos|exact HP]. Qed.

(** C92 in cosmic time: on every step [x1,x2] of an expanding background *)
Theorem C92_time : forall x1 x2, a < x1 -> x1 < x2 -> x2 < b ->
  (* UntilTEvent and UntilNEvent are active exactly when the value is reached on the step *)
  (forall v, active 0 (gT (UntilT v) x1) (gT (UntilT v) x2) <-> x1 <= v <= x2) /\
  (forall v, active 0 (gT (UntilN v) x1) (gT (UntilN v) x2) <-> T_N te y x1 <= v <= T_N te y x2) /\
  (* InflationEvent: the sign of its function is that of the acceleration of the scale factor, so
     direction +1 is the start and direction -1 the end of accelerated expansion *)
  (exists acc1 acc2, is_derive_n aT 2 x1 acc1 /\ is_derive_n aT 2 x2 acc2 /\
     (forall term, active 1 (gT (Inflation 1 term 0 None) x1) (gT (Inflation 1 term 0 None) x2) <-> acc1 <= 0 <= acc2) /\
     (forall term, active (-1) (gT (Inflation (-1) term 0 None) x1) (gT (Inflation (-1) term 0 None) x2) <-> acc2 <= 0 <= acc1) /\
     (* AfterInflationEndEvent fires only once the expansion is no longer accelerated *)
     (0 < (T_dphi te y x2)^2 / 2 + pV U (T_phi te y x2) ->
      active (event_direction AfterInflationEndEvent0) (gT AfterInflationEndEvent0 x1) (gT AfterInflationEndEvent0 x2) -> acc2 < 0)) /\
  (* CollapseEvent is never active while the expansion goes on *)
  ~ active 0 (gT CollapseEvent0 x1) (gT CollapseEvent0 x2) /\
  (* ModeExitEvent: while the expansion accelerates, exactly when aH passes k, and then upward *)
  (forall k, 0 < k -> (forall x, x1 <= x <= x2 -> 0 < T_inflating U te x (y x)) ->
     (active 0 (gT (ModeExitEvent0 k) x1) (gT (ModeExitEvent0 k) x2) <-> aHT x1 <= k <= aHT x2) /\
     (active (-1) (gT (ModeExit (-1) true k) x1) (gT (ModeExit (-1) true k) x2) -> False) /\
     aHT x1 < aHT x2).
Proof.
  intros x1 x2 H1 H12 H2. assert (I : forall s, x1 <= s <= x2 -> a < s < b) by (intros; lra).
  pose proof (I x1 ltac:(lra)) as I1. pose proof (I x2 ltac:(lra)) as I2.
  destruct (C90_time K U te y a b B x1 x2 H1 ltac:(lra) H2) as (NM & _). specialize (NM H12).
  split; [|split; [|split; [|split]]].
  - intros v. rewrite active0. unfold gT. cbn [event_call T_eqs e_t]. lra.
  - intros v. rewrite active0. unfold gT. cbn [event_call T_eqs e_N]. fold (T_N te y x1). unfold T_N in NM. fold (T_N te y x1) (T_N te y x2) in NM. unfold T_N in *. lra.
  - exists (exp (T_N te y x1) * (T_inflating U te x1 (y x1) / 3)), (exp (T_N te y x2) * (T_inflating U te x2 (y x2) / 3)).
    split; [apply (C20_inflating_time K U te y a b x1 B I1)|]. split; [apply (C20_inflating_time K U te y a b x2 B I2)|].
    pose proof (exp_pos (T_N te y x1)) as E1. pose proof (exp_pos (T_N te y x2)) as E2.
    set (i1 := T_inflating U te x1 (y x1)). set (i2 := T_inflating U te x2 (y x2)).
    assert (S1 : (i1 <= 0 <-> exp (T_N te y x1) * (i1 / 3) <= 0) /\ (0 <= i1 <-> 0 <= exp (T_N te y x1) * (i1 / 3))) by (split; split; intros; nra).
    assert (S2 : (i2 <= 0 <-> exp (T_N te y x2) * (i2 / 3) <= 0) /\ (0 <= i2 <-> 0 <= exp (T_N te y x2) * (i2 / 3))) by (split; split; intros; nra).
    split; [|split].
    + intros term. rewrite activep. unfold gT. cbn [event_call T_eqs e_inflating]. fold i1 i2. rewrite !Rminus_0_r. tauto.
    + intros term. rewrite activem. unfold gT. cbn [event_call T_eqs e_inflating]. fold i1 i2. rewrite !Rminus_0_r. tauto.
    + intros RP. unfold AfterInflationEndEvent0. cbn [event_direction]. rewrite activep. unfold gT. cbn [event_call T_eqs e_w]. rewrite !Rminus_0_r. intros [_ W].
      destruct (C20_sign_time U te x2 (y x2) RP) as [SA SB]. fold i2 in SA, SB.
      assert (i2 < 0); [|nra]. destruct (Rtotal_order i2 0) as [?|[Z|Z]]; [assumption|apply SB in Z; lra|apply SA in Z; lra].
  - rewrite active0. unfold gT, CollapseEvent0. cbn [event_call T_eqs e_H2]. destruct (proj2 B x1 I1) as [P1 _]. destruct (proj2 B x2 I2) as [P2 _]. lra.
  - intros k Hk IN. assert (M : T_logaH K U te y x1 < T_logaH K U te y x2).
    { apply (mono_lt (T_logaH K U te y) (fun s => T_inflating U te s (y s) / (3 * T_Hub K U te y s))); [| |exact H12].
      - intros s Hs. apply (T_logaH_derive K U te y a b B), I, Hs.
      - intros s Hs. destruct (T_pos K U te y a b B s (I s Hs)) as [HP _]. apply Rdiv_lt_0_compat; [apply IN, Hs|lra]. }
    unfold ModeExitEvent0. rewrite active0, activem, !gT_exit by assumption. rewrite !logaH_T in * by assumption.
    pose proof (aHT_pos x1 I1) as A1. pose proof (aHT_pos x2 I2) as A2.
    apply (ln_cmp _ _ A1 A2) in M as M'.
    rewrite <- (ln_cmpe (aHT x1) k A1 Hk), <- (ln_cmpe k (aHT x2) Hk A2). repeat split; intros; lra.
Qed.
(** a run with the events of the shooting classes passes the step [x1,x2] exactly if neither the requested
    number of e-folds is reached on it nor accelerated expansion ends on it *)
Theorem C92_trial_time : forall lim x1 x2, a < x1 -> x1 < x2 -> x2 < b ->
  ((exists e, In e (shoot_events lim) /\ event_terminal e = true /\ active (event_direction e) (gT e x1) (gT e x2)) <->
   (T_N te y x1 <= lim <= T_N te y x2 \/
    exists acc1 acc2, is_derive_n aT 2 x1 acc1 /\ is_derive_n aT 2 x2 acc2 /\ acc2 <= 0 <= acc1)).
Proof.
  intros lim x1 x2 H1 H12 H2. destruct (C92_time x1 x2 H1 H12 H2) as (_ & UN & (c1 & c2 & D1 & D2 & _ & EN & _) & CO & _). split.
  - intros (e & I & T & A). cbn in I. destruct I as [<-|[<-|[<-|[<-|[]] ] ] ]; cbn [event_terminal event_direction] in *; try discriminate.
    + right. exists c1, c2. split; [exact D1|]. split; [exact D2|]. apply (EN true), A.
    + left. apply UN, A.
    + contradiction.
  - intros [N|(c1' & c2' & D1' & D2' & S)].
    + exists (UntilN lim). split; [right; right; left; reflexivity|]. split; [reflexivity|]. apply UN, N.
    + exists (Inflation (-1) true 0 None). split; [right; left; reflexivity|]. split; [reflexivity|]. apply (EN true).
      assert (Q1 : c1' = c1) by (rewrite <- (is_derive_n_unique _ _ _ _ D1'); apply is_derive_n_unique, D1).
      assert (Q2 : c2' = c2) by (rewrite <- (is_derive_n_unique _ _ _ _ D2'); apply is_derive_n_unique, D2). subst. exact S.
Qed.
End Time.

Section Efolds.
Variables (K : R) (U : potfun) (tt te : bool) (y : R -> list R) (a b : R).
Hypothesis B : N_background K U tt te y a b.
Notation q := (N_eqs K U tt te).
(** the event function along the solution *)
Definition gN (e : event) (x : R) : R := event_call q e x (y x).
(** aH along the solution. a'' = d(aH)/dt = H d(aH)/dN: the expansion accelerates where aH grows. *)
Definition aHN (x : R) : R := exp x * N_Hub K U tt te y x.

Lemma gN_exit k d term x : a < x < b -> 0 < k -> gN (ModeExit d term k) x = N_logaH K U tt te y x - ln k.
Proof.
  intros Hx Hk. destruct (proj2 B x Hx) as [P _]. unfold gN, N_logaH, N_Hub. cbn [event_call N_eqs e_H2 e_N]. rewrite log_half by exact P. lra.
Qed.
Lemma logaH_N x : a < x < b -> N_logaH K U tt te y x = ln (aHN x).
Proof.
  intros Hx. destruct (N_pos K U tt te y a b B x Hx) as [HP _]. unfold N_logaH, aHN. rewrite ln_mult by (exact HP || apply exp_pos). rewrite ln_exp. reflexivity.
Qed.
Lemma aHN_pos x : a < x < b -> 0 < aHN x.
Proof. intros Hx. destruct (N_pos K U tt te y a b B x Hx) as [HP _]. apply Rmult_lt_0_compat; [apply exp_pos|exact HP]. Qed.

Lemma aHN_derive x : a < x < b -> is_derive aHN x (aHN x * (N_inflating K U tt te x (y x) / (3 * (N_Hub K U tt te y x)^2))).
Proof.
  intros Hx. pose proof (N_logaH_derive K U tt te y a b B x Hx) as D.
  apply (is_derive_ext_loc (fun s => exp (N_logaH K U tt te y s))).
  - assert (L : locally x (fun s => a < s < b)) by (apply (open_and (fun s => a < s) (fun s => s < b)); [apply open_gt|apply open_lt|exact Hx]).
    apply (filter_imp (fun s => a < s < b)); [|exact L].
    intros s Hs. rewrite logaH_N by exact Hs. apply exp_ln, aHN_pos, Hs.
  - evar_last; [apply (is_derive_comp exp (N_logaH K U tt te y) x); [apply is_derive_exp|exact D]|].
    rewrite logaH_N by exact Hx. rewrite exp_ln by (apply aHN_pos, Hx). unfold scal; simpl. unfold mult; simpl. ring.
Qed.

(** C92 in e-folds: on every step [x1,x2] of an expanding background *)
Theorem C92_efolds : forall x1 x2, a < x1 -> x1 < x2 -> x2 < b ->
  (* UntilTEvent and UntilNEvent are active exactly when the value is reached on the step *)
  (tt = true -> forall v, active 0 (gN (UntilT v) x1) (gN (UntilT v) x2) <-> N_t tt te y x1 <= v <= N_t tt te y x2) /\
  (forall v, active 0 (gN (UntilN v) x1) (gN (UntilN v) x2) <-> x1 <= v <= x2) /\
  (* InflationEvent: the sign of its function is that of the growth of aH, so
     direction +1 is the start and direction -1 the end of accelerated expansion *)
  (exists acc1 acc2, is_derive aHN x1 acc1 /\ is_derive aHN x2 acc2 /\
     (forall term, active 1 (gN (Inflation 1 term 0 None) x1) (gN (Inflation 1 term 0 None) x2) <-> acc1 <= 0 <= acc2) /\
     (forall term, active (-1) (gN (Inflation (-1) term 0 None) x1) (gN (Inflation (-1) term 0 None) x2) <-> acc2 <= 0 <= acc1) /\
     (* AfterInflationEndEvent fires only once the expansion is no longer accelerated *)
     (0 < (N_Hub K U tt te y x2)^2 * (N_dphi tt te y x2)^2 / 2 + pV U (N_phi tt te y x2) ->
      active (event_direction AfterInflationEndEvent0) (gN AfterInflationEndEvent0 x1) (gN AfterInflationEndEvent0 x2) -> acc2 < 0)) /\
  (* CollapseEvent is never active while the expansion goes on *)
  ~ active 0 (gN CollapseEvent0 x1) (gN CollapseEvent0 x2) /\
  (* ModeExitEvent: while the expansion accelerates, exactly when aH passes k, and then upward *)
  (forall k, 0 < k -> (forall x, x1 <= x <= x2 -> 0 < N_inflating K U tt te x (y x)) ->
     (active 0 (gN (ModeExitEvent0 k) x1) (gN (ModeExitEvent0 k) x2) <-> aHN x1 <= k <= aHN x2) /\
     (active (-1) (gN (ModeExit (-1) true k) x1) (gN (ModeExit (-1) true k) x2) -> False) /\
     aHN x1 < aHN x2).
Proof.
  intros x1 x2 H1 H12 H2. assert (I : forall s, x1 <= s <= x2 -> a < s < b) by (intros; lra).
  pose proof (I x1 ltac:(lra)) as I1. pose proof (I x2 ltac:(lra)) as I2.
  destruct (C90_efolds K U tt te y a b B x1 x2 H1 ltac:(lra) H2) as (NM & _). 
  split; [|split; [|split; [|split]]].
  - intros Htt v. specialize (NM Htt H12). rewrite active0. unfold gN. cbn [event_call N_eqs e_t]. unfold N_t in *. lra.
  - intros v. rewrite active0. unfold gN. cbn [event_call N_eqs e_N]. lra.
  - set (k1 := aHN x1 / (3 * (N_Hub K U tt te y x1)^2)). set (k2 := aHN x2 / (3 * (N_Hub K U tt te y x2)^2)).
    assert (P1 : 0 < k1). { destruct (N_pos K U tt te y a b B x1 I1) as (HP & _). apply Rdiv_lt_0_compat; [apply aHN_pos, I1|]. assert (0 < (N_Hub K U tt te y x1)^2) by (apply pow_lt; exact HP). lra. }
    assert (P2 : 0 < k2). { destruct (N_pos K U tt te y a b B x2 I2) as (HP & _). apply Rdiv_lt_0_compat; [apply aHN_pos, I2|]. assert (0 < (N_Hub K U tt te y x2)^2) by (apply pow_lt; exact HP). lra. }
    set (i1 := N_inflating K U tt te x1 (y x1)). set (i2 := N_inflating K U tt te x2 (y x2)).
    exists (k1 * i1), (k2 * i2).
    split; [evar_last; [apply (aHN_derive x1 I1)|unfold k1, i1, Rdiv; toR; ring]|]. split; [evar_last; [apply (aHN_derive x2 I2)|unfold k2, i2, Rdiv; toR; ring]|].
    assert (S1 : (i1 <= 0 <-> k1 * i1 <= 0) /\ (0 <= i1 <-> 0 <= k1 * i1)) by (split; split; intros; nra).
    assert (S2 : (i2 <= 0 <-> k2 * i2 <= 0) /\ (0 <= i2 <-> 0 <= k2 * i2)) by (split; split; intros; nra).
    split; [|split].
    + intros term. rewrite activep. unfold gN. cbn [event_call N_eqs e_inflating]. fold i1 i2. rewrite !Rminus_0_r. tauto.
    + intros term. rewrite activem. unfold gN. cbn [event_call N_eqs e_inflating]. fold i1 i2. rewrite !Rminus_0_r. tauto.
    + intros RP. unfold AfterInflationEndEvent0. cbn [event_direction]. rewrite activep. unfold gN. cbn [event_call N_eqs e_w]. rewrite !Rminus_0_r. intros [_ W].
      assert (RP' : 0 < N_H2 K U tt te x2 (y x2) * (var (N_idx tt te) "dphidN" (y x2))^2 / 2 + pV U (var (N_idx tt te) "phi" (y x2))).
      { destruct (N_pos K U tt te y a b B x2 I2) as (_ & HE & _). change (N_H2 K U tt te x2 (y x2)) with (N_get_H2 x2 (N_dphi tt te y x2) (pV U (N_phi tt te y x2)) K). rewrite <- HE.
        unfold N_dphi, N_phi in RP. simpl in RP. rewrite Rmult_1_r in RP. exact RP. }
      destruct (C20_sign_efolds K U tt te x2 (y x2) RP') as [SA SB]. fold i2 in SA, SB.
      assert (i2 < 0); [|nra]. destruct (Rtotal_order i2 0) as [?|[Z|Z]]; [assumption|apply SB in Z; lra|apply SA in Z; lra].
  - rewrite active0. unfold gN, CollapseEvent0. cbn [event_call N_eqs e_H2]. destruct (proj2 B x1 I1) as [P1 _]. destruct (proj2 B x2 I2) as [P2 _]. lra.
  - intros k Hk IN. assert (M : N_logaH K U tt te y x1 < N_logaH K U tt te y x2).
    { apply (mono_lt (N_logaH K U tt te y) (fun s => N_inflating K U tt te s (y s) / (3 * (N_Hub K U tt te y s)^2))); [| |exact H12].
      - intros s Hs. apply (N_logaH_derive K U tt te y a b B), I, Hs.
      - intros s Hs. destruct (N_pos K U tt te y a b B s (I s Hs)) as [HP _]. apply Rdiv_lt_0_compat; [apply IN, Hs|]. assert (0 < (N_Hub K U tt te y s)^2) by (apply pow_lt; exact HP). lra. }
    unfold ModeExitEvent0. rewrite active0, activem, !gN_exit by assumption. rewrite !logaH_N in * by assumption.
    pose proof (aHN_pos x1 I1) as A1. pose proof (aHN_pos x2 I2) as A2.
    apply (ln_cmp _ _ A1 A2) in M as M'.
    rewrite <- (ln_cmpe (aHN x1) k A1 Hk), <- (ln_cmpe k (aHN x2) Hk A2). repeat split; intros; lra.
Qed.
(** a run with the events of the shooting classes passes the step [x1,x2] exactly if neither the requested
    number of e-folds is reached on it nor accelerated expansion ends on it *)
Theorem C92_trial_efolds : forall lim x1 x2, a < x1 -> x1 < x2 -> x2 < b ->
  ((exists e, In e (shoot_events lim) /\ event_terminal e = true /\ active (event_direction e) (gN e x1) (gN e x2)) <->
   (x1 <= lim <= x2 \/
    exists acc1 acc2, is_derive aHN x1 acc1 /\ is_derive aHN x2 acc2 /\ acc2 <= 0 <= acc1)).
Proof.
  intros lim x1 x2 H1 H12 H2. destruct (C92_efolds x1 x2 H1 H12 H2) as (_ & UN & (c1 & c2 & D1 & D2 & _ & EN & _) & CO & _). split.
  - intros (e & I & T & A). cbn in I. destruct I as [<-|[<-|[<-|[<-|[]] ] ] ]; cbn [event_terminal event_direction] in *; try discriminate.
    + right. exists c1, c2. split; [exact D1|]. split; [exact D2|]. apply (EN true), A.
    + left. apply UN, A.
    + contradiction.
  - intros [N|(c1' & c2' & D1' & D2' & S)].
    + exists (UntilN lim). split; [right; right; left; reflexivity|]. split; [reflexivity|]. apply UN, N.
    + exists (Inflation (-1) true 0 None). split; [right; left; reflexivity|]. split; [reflexivity|]. apply (EN true).
      assert (Q1 : c1' = c1) by (rewrite <- (is_derive_unique _ _ _ D1'); apply is_derive_unique, D1).
      assert (Q2 : c2' = c2) by (rewrite <- (is_derive_unique _ _ _ D2'); apply is_derive_unique, D2). subst. exact S.
Qed.
End Efolds.

(** on the power law a = t^2 (aH = 2t) the mode k = 4 exits between t = 3/2 and t = 5/2 *)
Theorem C92_nonvacuous : active 0 (gT 0 (Vexp 10) true y_flat (ModeExitEvent0 4) (3/2)) (gT 0 (Vexp 10) true y_flat (ModeExitEvent0 4) (5/2)).
Proof.
  destruct C90_nonvacuous as [Bk In].
  destruct (C92_time 0 (Vexp 10) true y_flat 1 3 Bk (3/2) (5/2) ltac:(lra) ltac:(lra) ltac:(lra)) as (_ & _ & _ & _ & M).
  destruct (M 4 ltac:(lra)) as (A & _ & _); [intros x Hx; apply In; lra|]. apply A.
  assert (E : forall t, 1 < t < 3 -> aHT 0 (Vexp 10) true y_flat t = 2 * t); [|rewrite !E by lra; lra].
  intros t Ht. unfold aHT, aT, T_Hub. 
  assert (H2 : T_H2 0 (Vexp 10) true t (y_flat t) = (2 / t)^2).
  { unfold T_H2, T_get_H2, y_flat, Vexp. cbn. replace (- (2 * ln t)) with (-2 * ln t) by ring.
    assert (X : exp (-2 * ln t) = / t ^ 2) by (replace (-2 * ln t) with (- (ln t + ln t)) by ring; rewrite exp_Ropp, exp_plus, exp_ln by lra; f_equal; ring).
    rewrite X. field. lra. }
  rewrite H2, sqrt_pow2 by (apply Rlt_le, Rdiv_lt_0_compat; lra).
  unfold T_N, y_flat. cbn. replace (2 * ln t) with (ln t + ln t) by ring. rewrite exp_plus, exp_ln by lra. field. lra.
Qed.
