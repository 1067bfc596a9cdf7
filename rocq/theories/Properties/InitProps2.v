(** C33, continued: which starting values describe a real start. *)
From Coq Require Import Reals List String ZArith Lra Lia Bool.
From Verif Require Import Base Model.Equations Model.Background Model.Float Model.Solution Model.InitCond
  Proofs.FloatLemmas Properties.InitProps.
Import ListNotations.
Open Scope R_scope.
Open Scope string_scope.

(** the start is an instant with a finite number of e-folds and positive Hubble parameter *)
Definition real_start (r : res icobj) : Prop := exists ic N H, r = Ok ic /\ ic_N ic = Fin N /\ ic_H ic = Fin H /\ 0 < H.
(** (aH)^2 = V e^{2N}/c - K is positive (c = 3: slow roll, c = 2: onset of inflation); a given Omega_Ki
    is below one and has the sign opposite to K *)
Definition startable (c K V : R) (i : icinput) : Prop :=
  match i with InN n => 0 < V / c * exp (2 * n) - K | InO o => o < 1 /\ 0 < - K / o end.

Lemma wrong_sign c K V o : 0 < c -> 0 < V -> o < 1 -> o <> 0 -> - K / o <= 0 ->
  flog (Fin (c * K / V * (1 - 1 / o))) = NInf \/ flog (Fin (c * K / V * (1 - 1 / o))) = NaN.
Proof.
  intros Hc HV Ho o0 P. replace (c * K / V * (1 - 1 / o)) with (c / V * ((- K / o) * (1 - o))) by (field; lra).
  assert (X : c / V * ((- K / o) * (1 - o)) <= 0).
  { assert (0 < c / V) by (apply Rdiv_lt_0_compat; lra). set (a := c / V) in *. set (b := - K / o) in *. assert (b * (1 - o) <= 0) by nra. nra. }
  unfold flog. destruct (Rlt_dec 0 _); [lra|]. destruct (Req_EM_T _ 0); auto.
Qed.

Theorem C33_slow_roll_partial : forall q phi t eta xe i, 0 < pV (ie_U q) phi ->
  (real_start (sr_init q phi t eta xe (kw_of i)) <-> startable 3 (ie_K q) (pV (ie_U q) phi) i).
Proof.
  intros q phi t eta xe i HV. split.
  - intros (ic & N & H & E & EN & EH & HP). destruct i as [n|o]; cbn [startable].
    + destruct (Rlt_dec 0 (pV (ie_U q) phi / 3 * exp (2 * n) - ie_K q)) as [A|A]; [exact A|exfalso].
      unfold sr_init in E. cbn [kw_of kw_N kw_O] in E. rewrite fdiv_fin in E by lra. cbn [fexp fmul fsub] in E.
      set (A2 := pV (ie_U q) phi / 3 * exp (2 * n) - ie_K q) in *.
      destruct (Rlt_dec A2 0) as [B|B]; [rewrite flt_true in E by lra; discriminate|].
      assert (Z : A2 = 0) by lra. rewrite flt_false in E by lra. rewrite Z in E. rewrite fsqrt_fin in E by lra. rewrite sqrt_0 in E. cbn [bind fneg fexp fmul] in E.
      rewrite Rmult_0_l in E. destruct q; injection E as <-; cbn [ic_H] in EH; injection EH as EH; lra.
    + unfold sr_init in E. cbn [kw_of kw_N kw_O] in E.
      destruct (Rlt_dec o 1) as [O1|O1]; [|rewrite flt_false in E by lra; discriminate]. rewrite flt_true in E by lra.
      destruct (Req_EM_T o 0) as [O0|O0]; [cbn [feq] in E; destruct (Req_EM_T o 0); [discriminate|contradiction]|].
      rewrite feq_false in E by exact O0. split; [exact O1|]. destruct (Rlt_dec 0 (- ie_K q / o)) as [A|A]; [exact A|exfalso].
      rewrite !fdiv_fin in E by lra. cbn [fmul fsub] in E.
      destruct (wrong_sign 3 (ie_K q) _ o ltac:(lra) HV O1 O0 ltac:(lra)) as [F|F]; rewrite F in E; cbn [bind] in E;
        assert (EN' : ic_N ic = fdiv (flog (Fin (3 * ie_K q / pV (ie_U q) phi * (1 - 1 / o)))) (Fin 2)) by (rewrite F; destruct q; injection E as <-; reflexivity);
        rewrite F in EN'; cbn in EN'; [destruct (Rlt_dec 2 0); [lra|]|]; rewrite EN' in EN; discriminate.
  - intros A. destruct i as [n|o]; cbn [startable] in A.
    + eexists _, _, _. split; [apply sr_from_N; exact A|]. split; [reflexivity|]. split; [reflexivity|].
      apply Rmult_lt_0_compat; [apply sqrt_lt_R0; exact A|apply exp_pos].
    + destruct A as [O1 A]. eexists _, _, _. split; [apply sr_from_O; assumption|]. split; [reflexivity|]. split; [reflexivity|].
      apply Rmult_lt_0_compat; [apply sqrt_lt_R0; exact A|apply exp_pos].
Qed.

Theorem C33_inflation_start_partial : forall q phi t eta xe i, 0 < pV (ie_U q) phi ->
  (real_start (is_init q phi t eta xe (kw_of i)) <-> startable 2 (ie_K q) (pV (ie_U q) phi) i).
Proof.
  intros q phi t eta xe i HV. split.
  - intros (ic & N & H & E & EN & EH & HP). destruct i as [n|o]; cbn [startable].
    + destruct (Rlt_dec 0 (pV (ie_U q) phi / 2 * exp (2 * n) - ie_K q)) as [A|A]; [exact A|exfalso].
      unfold is_init in E. cbn [kw_of kw_N kw_O] in E. rewrite fdiv_fin in E by lra. cbn [fexp fmul fsub] in E.
      destruct (Rlt_dec (pV (ie_U q) phi / 2 * exp (2 * n) - ie_K q) 0) as [B|B]; [rewrite flt_true in E by lra; discriminate|].
      assert (Z : pV (ie_U q) phi / 2 * exp (2 * n) - ie_K q = 0) by lra.
      assert (Z2 : pV (ie_U q) phi / 2 - ie_K q * exp (-2 * n) = 0).
      { replace (pV (ie_U q) phi / 2 - ie_K q * exp (-2 * n)) with ((pV (ie_U q) phi / 2 * exp (2 * n) - ie_K q) * exp (-2 * n)).
        - rewrite Z. ring.
        - rewrite exp_2, exp_m2. field. apply Rgt_not_eq, exp_pos. }
      rewrite flt_false in E by lra. cbn [bind fmul fexp fsub] in E. rewrite Z2 in E. rewrite (fsqrt_fin 0) in E by lra. rewrite sqrt_0 in E.
      injection E as <-. cbn [ic_H] in EH. injection EH as EH. lra.
    + unfold is_init in E. cbn [kw_of kw_N kw_O] in E.
      destruct (Rlt_dec o 1) as [O1|O1]; [|rewrite flt_false in E by lra; discriminate]. rewrite flt_true in E by lra.
      destruct (Req_EM_T o 0) as [O0|O0]; [cbn [feq] in E; destruct (Req_EM_T o 0); [discriminate|contradiction]|].
      rewrite feq_false in E by exact O0. split; [exact O1|]. destruct (Rlt_dec 0 (- ie_K q / o)) as [A|A]; [exact A|exfalso].
      rewrite !fdiv_fin in E by lra. cbn [fmul fsub] in E.
      destruct (wrong_sign 2 (ie_K q) _ o ltac:(lra) HV O1 O0 ltac:(lra)) as [F|F]; rewrite F in E; cbn [bind] in E;
        assert (EN' : ic_N ic = fdiv (flog (Fin (2 * ie_K q / pV (ie_U q) phi * (1 - 1 / o)))) (Fin 2)) by (rewrite F; injection E as <-; reflexivity);
        rewrite F in EN'; cbn in EN'; [destruct (Rlt_dec 2 0); [lra|]|]; rewrite EN' in EN; discriminate.
  - intros A. destruct i as [n|o]; cbn [startable] in A.
    + eexists _, _, _. split; [apply is_from_N; exact A|]. split; [reflexivity|]. split; [reflexivity|].
      apply sqrt_lt_R0. replace (pV (ie_U q) phi / 2 - ie_K q * exp (-2 * n)) with ((pV (ie_U q) phi / 2 * exp (2 * n) - ie_K q) * exp (-2 * n)).
      * apply Rmult_lt_0_compat; [exact A|apply exp_pos].
      * rewrite exp_2, exp_m2. field. apply Rgt_not_eq, exp_pos.
    + destruct A as [O1 A]. destruct (is_from_O q phi t eta xe o HV O1 A) as [E1 E2].
      eexists _, _, _. split; [exact E1|]. split; [reflexivity|]. split; [reflexivity|].
      apply sqrt_lt_R0. match goal with |- 0 < ?V / 2 - ?K * exp (-2 * ?n) => replace (V / 2 - K * exp (-2 * n)) with ((V / 2 * exp (2 * n) - K) * exp (-2 * n)) end.
      * rewrite E2. apply Rmult_lt_0_compat; [exact A|apply exp_pos].
      * rewrite exp_2, exp_m2. field. apply Rgt_not_eq, exp_pos.
Qed.

(** The full claim - values that describe no start are rejected - is false. A curvature density given in a
    flat universe is accepted and starts the evolution at N = -infinity with H = NaN; one of the wrong
    sign gives N = NaN; and N_i with V e^{2N}/c = K exactly gives H = 0. *)
Theorem C33_invalid_start_refuted : forall U phi te t eta xe, 0 < pV U phi ->
  (forall o, o < 1 -> o <> 0 ->
     (exists ic, sr_init (IT 0 U te) phi t eta xe (mkkw None (Some o)) = Ok ic /\ ic_N ic = NInf /\ ic_H ic = NaN) /\
     (exists ic, is_init (IT 0 U te) phi t eta xe (mkkw None (Some o)) = Ok ic /\ ic_N ic = NInf /\ ic_H ic = NaN)) /\
  (forall o, 0 < o < 1 ->
     (exists ic, sr_init (IT 1 U te) phi t eta xe (mkkw None (Some o)) = Ok ic /\ ic_N ic = NaN /\ ic_H ic = NaN) /\
     (exists ic, is_init (IT 1 U te) phi t eta xe (mkkw None (Some o)) = Ok ic /\ ic_N ic = NaN /\ ic_H ic = NaN)) /\
  (exists ic, sr_init (IT 1 U te) phi t eta xe (mkkw (Some (ln (3 / pV U phi) / 2)) None) = Ok ic /\ ic_H ic = Fin 0 /\ ic_O ic = NInf).
Proof.
  intros U phi te t eta xe HV. assert (HV' : 0 < pV (ie_U (IT 0 U te)) phi) by exact HV.
  assert (FL : forall c o, o <> 0 -> 0 < c -> flog (Fin (c * 0 / pV U phi * (1 - 1 / o))) = NInf).
  { intros c o O0 Hc. replace (c * 0 / pV U phi * (1 - 1 / o)) with 0 by (field; lra). unfold flog. destruct (Rlt_dec 0 0); [lra|]. destruct (Req_EM_T 0 0); [reflexivity|lra]. }
  assert (NI : fdiv NInf (Fin 2) = NInf) by (cbn; destruct (Rlt_dec 2 0); [lra|reflexivity]).
  assert (Z0 : inf_of 0 = NaN) by (unfold inf_of; destruct (Rlt_dec 0 0); [lra|reflexivity]).
  split; [|split].
  - intros o O1 O0. split.
    + eexists. split; [|split].
      * unfold sr_init. cbn [kw_N kw_O ie_U ie_K]. rewrite flt_true by lra. rewrite feq_false by exact O0. rewrite !fdiv_fin by lra. cbn [fmul fsub bind].
        rewrite FL, NI by lra. reflexivity.
      * reflexivity.
      * cbn [ic_H fneg fexp]. replace (- 0 / o) with 0 by (field; exact O0). rewrite fsqrt_fin by lra. rewrite sqrt_0. cbn [fmul]. exact Z0.
    + eexists. split; [|split].
      * unfold is_init. cbn [kw_N kw_O ie_U ie_K]. rewrite flt_true by lra. rewrite feq_false by exact O0. rewrite !fdiv_fin by lra. cbn [fmul fsub bind].
        rewrite FL, NI by lra. reflexivity.
      * reflexivity.
      * assert (I2 : inf_of (- -2) = PInf) by (unfold inf_of; destruct (Rlt_dec 0 (- -2)); [reflexivity|lra]).
        change (fsqrt (fsub (Fin (pV U phi / 2)) (fmul (Fin 0) (fexp (inf_of (- -2))))) = NaN). rewrite I2. cbn [fexp fmul]. rewrite Z0. reflexivity.
  - intros o [O0 O1]. assert (N0 : o <> 0) by lra.
    assert (FN : forall c, 0 < c -> flog (Fin (c * 1 / pV U phi * (1 - 1 / o))) = NaN).
    { intros c Hc. assert (X : c * 1 / pV U phi * (1 - 1 / o) < 0).
      { replace (c * 1 / pV U phi * (1 - 1 / o)) with (- (c / pV U phi * ((1 - o) / o))) by (field; lra).
        assert (0 < c / pV U phi * ((1 - o) / o)); [|lra]. apply Rmult_lt_0_compat; apply Rdiv_lt_0_compat; lra. }
      unfold flog. destruct (Rlt_dec 0 _); [lra|]. destruct (Req_EM_T _ 0); [lra|reflexivity]. }
    split.
    + eexists. split; [|split].
      * unfold sr_init. cbn [kw_N kw_O ie_U ie_K]. rewrite flt_true by lra. rewrite feq_false by exact N0. rewrite !fdiv_fin by lra. cbn [fmul fsub bind].
        rewrite FN by lra. reflexivity.
      * reflexivity.
      * cbn [ic_H fdiv fneg fexp]. assert (X : -1 / o < 0).
        { replace (-1 / o) with (- (1 / o)) by (field; lra). assert (0 < 1 / o) by (apply Rdiv_lt_0_compat; lra). lra. }
        destruct (fsqrt _); reflexivity.
    + eexists. split; [|split].
      * unfold is_init. cbn [kw_N kw_O ie_U ie_K]. rewrite flt_true by lra. rewrite feq_false by exact N0. rewrite !fdiv_fin by lra. cbn [fmul fsub bind].
        rewrite FN by lra. reflexivity.
      * reflexivity.
      * reflexivity.
  - set (n := ln (3 / pV U phi) / 2). assert (E : pV U phi / 3 * exp (2 * n) - 1 = 0).
    { unfold n. rewrite exp_half_ln by (apply Rdiv_lt_0_compat; lra). field. lra. }
    eexists. split; [|split].
    + unfold sr_init. cbn [kw_N kw_O ie_U ie_K]. rewrite fdiv_fin by lra. cbn [fexp fmul fsub]. rewrite E. rewrite flt_false by lra.
      rewrite fsqrt_fin by lra. rewrite sqrt_0. cbn [bind]. reflexivity.
    + cbn [ic_H fneg fexp fmul]. f_equal. ring.
    + cbn [ic_O fdiv]. destruct (Req_EM_T 0 0); [|lra]. unfold inf_of. destruct (Rlt_dec 0 (- (1))); [lra|]. destruct (Rlt_dec (- (1)) 0); [reflexivity|lra].
Qed.
Theorem C33_start_nonvacuous : 0 < pV Uex 0 /\ startable 3 1 (pV Uex 0) (InO (-1)) /\ ~ startable 3 1 (pV Uex 0) (InO (1/2)).
Proof. cbn. split; [lra|]. split; [lra|]. intros [_ X]. lra. Qed.
