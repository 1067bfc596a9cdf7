(** Initial conditions: properties C30-C35. *)
From Coq Require Import Reals List String ZArith Lra Lia Bool Classical.
From Verif Require Import Base Model.Equations Model.Background Model.Float Model.Solution Model.InitCond
  Spec.SolutionSpec Proofs.FloatLemmas Proofs.DictLemmas Proofs.SolLemmas Proofs.PostProc.
Import ListNotations.
Open Scope R_scope.
Open Scope string_scope.

(** all attributes except the record of which keyword was used *)
Definition same_data (a b : icobj) : Prop :=
  ic_eqs a = ic_eqs b /\ ic_phi a = ic_phi b /\ ic_t a = ic_t b /\ ic_eta a = ic_eta b /\ ic_x_end a = ic_x_end b /\
  ic_V a = ic_V b /\ ic_N a = ic_N b /\ ic_O a = ic_O b /\ ic_aH a = ic_aH b /\ ic_H a = ic_H b /\
  ic_x_ini a = ic_x_ini b /\ ic_dphi a = ic_dphi b.

(** the curvature relations at the start: N, Omega_K, aH and H describe one and the same instant
    with energy density rho *)
Definition consistent_start (K rho : R) (ic : icobj) : Prop :=
  exists N Om aH H, ic_N ic = Fin N /\ ic_O ic = Fin Om /\ ic_aH ic = Fin aH /\ ic_H ic = Fin H /\
    0 < H /\ aH = exp N * H /\ H^2 = rho / 3 - K * exp (-2 * N) /\ Om = - K / (aH)^2.

Lemma exp_2 n : exp (2 * n) = (exp n)^2.
Proof. replace (2 * n) with (n + n) by ring. rewrite exp_plus. ring. Qed.
Lemma exp_m2 n : exp (-2 * n) = / (exp n)^2.
Proof. replace (-2 * n) with (- (2 * n)) by ring. rewrite exp_Ropp, exp_2. reflexivity. Qed.
Lemma exp_inv n : exp n * exp (- n) = 1.
Proof. rewrite <- exp_plus. replace (n + - n) with 0 by ring. apply exp_0. Qed.

Ltac fl_eval :=
  repeat (first [rewrite fdiv_fin by (assumption || lra) | rewrite fsqrt_fin by (assumption || lra) | rewrite flog_fin by (assumption || lra)]; cbn [fmul fsub fadd fneg fexp]).

(** closed form of what SlowRollIC computes *)
Definition sr_obj (q : ieqs) phi t eta xe input (n o aH : fl) : icobj :=
  let V := pV (ie_U q) phi in let dV := pdV (ie_U q) phi in let H := fmul aH (fexp (fneg n)) in
  mkic q phi t eta xe input V n o aH H
    (match q with IT _ _ _ => Some (option_map Fin t) | IN _ _ _ _ => Some (Some n) | IOther _ _ _ _ => None end)
    (match q with IT _ _ _ => Some (fdiv (Fin (- dV)) (fmul (Fin 3) H))
                | IN _ _ _ _ => Some (fdiv (Fin (- dV)) (fmul (Fin 3) (fmul H H))) | IOther _ _ _ _ => None end).
Lemma sr_from_N q phi t eta xe n : let V := pV (ie_U q) phi in let K := ie_K q in
  0 < V / 3 * exp (2 * n) - K ->
  sr_init q phi t eta xe (kw_of (InN n)) =
  Ok (sr_obj q phi t eta xe (InN n) (Fin n) (Fin (- K / (V / 3 * exp (2 * n) - K))) (Fin (sqrt (V / 3 * exp (2 * n) - K)))).
Proof.
  intros V K P. unfold sr_init. cbn [kw_of kw_N kw_O]. fold V K. rewrite fdiv_fin by lra. cbn [fexp fmul fsub].
  rewrite flt_false by lra. rewrite fdiv_fin by lra. rewrite fsqrt_fin by lra. cbn [bind].
  unfold sr_obj. destruct q; reflexivity.
Qed.
Lemma omega_range K o : 0 < - K / o -> o <> 0 /\ K <> 0.
Proof.
  intros P. split; intros ->; unfold Rdiv in P; [rewrite Rinv_0, Rmult_0_r in P|rewrite Ropp_0, Rmult_0_l in P]; lra.
Qed.
Lemma log_arg c K V o : 0 < c -> 0 < V -> o < 1 -> 0 < - K / o -> 0 < c * K / V * (1 - 1 / o).
Proof.
  intros Hc HV Ho P. destruct (omega_range K o P) as [o0 _].
  replace (c * K / V * (1 - 1 / o)) with (c / V * ((- K / o) * (1 - o))) by (field; lra).
  apply Rmult_lt_0_compat; [apply Rdiv_lt_0_compat; lra|]. apply Rmult_lt_0_compat; lra.
Qed.
Lemma sr_from_O q phi t eta xe o : let V := pV (ie_U q) phi in let K := ie_K q in
  0 < V -> o < 1 -> 0 < - K / o ->
  sr_init q phi t eta xe (kw_of (InO o)) =
  Ok (sr_obj q phi t eta xe (InO o) (Fin (ln (3 * K / V * (1 - 1 / o)) / 2)) (Fin o) (Fin (sqrt (- K / o)))).
Proof.
  intros V K HV Ho P. destruct (omega_range K o P) as [o0 _]. pose proof (log_arg 3 K V o ltac:(lra) HV Ho P) as A.
  unfold sr_init. cbn [kw_of kw_N kw_O]. fold V K.
  rewrite flt_true by lra. rewrite feq_false by assumption. rewrite !fdiv_fin by lra. cbn [fmul fsub].
  rewrite flog_fin by exact A. rewrite fdiv_fin by lra. rewrite fsqrt_fin by lra. cbn [bind].
  unfold sr_obj. destruct q; reflexivity.
Qed.
Lemma sr_obj_same q phi t eta xe i1 i2 n o aH : same_data (sr_obj q phi t eta xe i1 n o aH) (sr_obj q phi t eta xe i2 n o aH).
Proof. repeat split. Qed.
Lemma ln_half_exp n x : x = exp (2 * n) -> ln x / 2 = n.
Proof. intros ->. rewrite ln_exp. field. Qed.
Lemma exp_half_ln x : 0 < x -> exp (2 * (ln x / 2)) = x.
Proof. intros H. replace (2 * (ln x / 2)) with (ln x) by field. apply exp_ln, H. Qed.
Lemma pow_div_sqrt x n : 0 < x -> (sqrt x * exp (- n))^2 = x * exp (-2 * n).
Proof.
  intros H. rewrite Rpow_mult_distr. replace ((sqrt x)^2) with x by (rewrite pow2_sqrt; lra).
  f_equal. rewrite exp_m2, exp_Ropp. rewrite pow_inv. reflexivity.
Qed.

Definition is_other (q : ieqs) : bool := match q with IOther _ _ _ _ => true | _ => false end.
Lemma sr_init_obj q phi t eta xe kw ic : sr_init q phi t eta xe kw = Ok ic ->
  exists input n o aH, ic = sr_obj q phi t eta xe input n o aH /\ kw = kw_of input.
Proof.
  unfold sr_init. destruct kw as [[n|] [o|]]; cbn [kw_N kw_O]; try discriminate.
  - set (c := fsub _ _). destruct (flt c (Fin 0)); [discriminate|]. cbn [bind]. intros H. injection H as <-.
    exists (InN n), (Fin n), (fdiv (Fin (- ie_K q)) c), (fsqrt c). split; [|reflexivity]. unfold sr_obj. destruct q; reflexivity.
  - destruct (flt (Fin o) (Fin 1)); [|discriminate]. destruct (feq (Fin o) (Fin 0)); [discriminate|]. cbn [bind]. intros H. injection H as <-.
    exists (InO o), (fdiv (flog (fmul (fdiv (Fin (3 * ie_K q)) (Fin (pV (ie_U q) phi))) (fsub (Fin 1) (fdiv (Fin 1) (Fin o))))) (Fin 2)), (Fin o), (fsqrt (fdiv (Fin (- ie_K q)) (Fin o))). split; [|reflexivity]. unfold sr_obj. destruct q; reflexivity.
Qed.

(** C30: N_i and Omega_Ki are interchangeable, and all start data are consistent with
    the first Friedmann equation with rho = V (slow roll). *)
Theorem C30_from_N : forall q phi t eta xe n, let V := pV (ie_U q) phi in let K := ie_K q in
  K <> 0 -> 0 < V -> 0 < V / 3 * exp (2 * n) - K ->
  exists ic Om ic', sr_init q phi t eta xe (kw_of (InN n)) = Ok ic /\ ic_N ic = Fin n /\ ic_O ic = Fin Om /\
    Om < 1 /\ sr_init q phi t eta xe (kw_of (InO Om)) = Ok ic' /\ same_data ic ic' /\ (forall y0, sr_call ic y0 = sr_call ic' y0) /\
    consistent_start K V ic.
Proof.
  intros q phi t eta xe n V K HK HV P.
  set (A := V / 3 * exp (2 * n) - K) in *. set (Om := - K / A).
  assert (B : 0 < V / 3 * exp (2 * n)) by (apply Rmult_lt_0_compat; [lra|apply exp_pos]).
  assert (O1 : Om < 1). { unfold Om. apply (Rmult_lt_reg_r A); [exact P|]. replace (- K / A * A) with (- K) by (field; lra). unfold A. lra. }
  assert (KO : - K / Om = A). { unfold Om. field. split; lra. }
  assert (EN : ln (3 * K / V * (1 - 1 / Om)) / 2 = n).
  { apply ln_half_exp. unfold Om. replace (3 * K / V * (1 - 1 / (- K / A))) with (3 / V * (A + K)) by (field; repeat split; lra).
    unfold A. field. lra. }
  pose proof (sr_from_N q phi t eta xe n) as E1. fold V K A Om in E1. specialize (E1 P).
  pose proof (sr_from_O q phi t eta xe Om) as E2. cbv zeta in E2. fold V K in E2. rewrite KO, EN in E2. specialize (E2 HV O1 P).
  eexists _, Om, _. split; [exact E1|]. split; [reflexivity|]. split; [reflexivity|]. split; [exact O1|]. split; [exact E2|].
  split; [apply sr_obj_same|]. split.
  { intros y0. destruct q; reflexivity. }
  exists n, Om, (sqrt A), (sqrt A * exp (- n)). assert (0 < sqrt A) by (apply sqrt_lt_R0; exact P).
  repeat split; try reflexivity.
  - apply Rmult_lt_0_compat; [assumption|apply exp_pos].
  - rewrite (Rmult_comm (sqrt A)), <- Rmult_assoc, exp_inv. ring.
  - rewrite pow_div_sqrt by exact P. unfold A. rewrite Rmult_minus_distr_r, exp_m2, exp_2. field. apply Rgt_not_eq, exp_pos.
  - rewrite pow2_sqrt by lra. reflexivity.
Qed.
Theorem C30_from_Omega : forall q phi t eta xe o, let V := pV (ie_U q) phi in let K := ie_K q in
  0 < V -> o < 1 -> 0 < - K / o ->
  exists ic n ic', sr_init q phi t eta xe (kw_of (InO o)) = Ok ic /\ ic_O ic = Fin o /\ ic_N ic = Fin n /\
    sr_init q phi t eta xe (kw_of (InN n)) = Ok ic' /\ same_data ic ic' /\ (forall y0, sr_call ic y0 = sr_call ic' y0) /\
    consistent_start K V ic.
Proof.
  intros q phi t eta xe o V K HV Ho P. destruct (omega_range K o P) as [o0 K0].
  pose proof (log_arg 3 K V o ltac:(lra) HV Ho P) as L.
  pose proof (sr_from_O q phi t eta xe o) as E1. cbv zeta in E1. fold V K in E1. specialize (E1 HV Ho P).
  set (n := ln (3 * K / V * (1 - 1 / o)) / 2) in *.
  assert (A : V / 3 * exp (2 * n) - K = - K / o). { unfold n. rewrite exp_half_ln by exact L. field. lra. }
  assert (P' : 0 < V / 3 * exp (2 * n) - K) by lra.
  destruct (C30_from_N q phi t eta xe n) as [ic [Om [ic' [F1 [F2 [F3 [_ [F4 [F5 [F6 F7]]]]]]]]]]; try assumption. fold V K in F7.
  pose proof (sr_from_N q phi t eta xe n P') as G. fold V K in G. rewrite A in G. replace (- K / (- K / o)) with o in G by (field; lra).
  rewrite G in F1. injection F1 as F1. subst ic. injection F3 as F3. subst Om. rewrite E1 in F4. injection F4 as F4. subst ic'.
  eexists _, n, _. split; [exact E1|]. split; [reflexivity|]. split; [reflexivity|]. split; [exact G|].
  split; [apply sr_obj_same|]. split; [intros y0; symmetry; apply F6|].
  destruct F7 as [N [Om [aH [H F7]]]]. exists N, Om, aH, H. exact F7.
Qed.
(** the initial velocity is the slow-roll one: 3 H dphi/dt = -V' (dphi/dN = dphi/dt / H for e-folds) *)
Theorem C30_velocity : forall q phi t eta xe kw ic H, is_other q = false ->
  sr_init q phi t eta xe kw = Ok ic -> ic_H ic = Fin H -> 0 < H ->
  exists d, ic_dphi ic = Some (Fin d) /\
  match q with IT _ _ _ => 3 * H * d = - pdV (ie_U q) phi | _ => 3 * H * (H * d) = - pdV (ie_U q) phi end.
Proof.
  intros q phi t eta xe kw ic H Hq E EH P. apply sr_init_obj in E. destruct E as [i [n [o [aH [-> _]]]]].
  unfold sr_obj in EH. cbn [ic_H] in EH. unfold sr_obj. cbn [ic_dphi]. rewrite EH. destruct q; [| |discriminate].
  - cbn [fmul]. rewrite fdiv_fin by nra. eexists. split; [reflexivity|]. cbn. field. lra.
  - cbn [fmul]. rewrite fdiv_fin by (apply Rmult_integral_contrapositive_currified; nra). eexists. split; [reflexivity|]. cbn. field. lra.
Qed.
(** V = 1 + phi^2 at phi = 0 in a closed universe with N_i = 3, in an open one with Omega_Ki = 1/2 *)
Definition Uex : potfun := mkpotfun (fun p => 1 + p^2) (fun p => 2 * p) (fun _ => 2) (fun _ => 0).
Theorem C30_nonvacuous : 0 < pV Uex 0 / 3 * exp (2 * 3) - 1 /\ (1/2 < 1 /\ 0 < - (-1) / (1/2)).
Proof.
  split; [|lra]. cbn [pV Uex]. pose proof (exp_ineq1 6 ltac:(lra)). replace (2 * 3) with 6 by ring. lra.
Qed.

(** ** C32 *)
(** a tracked quantity without initial value *)
Definition missing (q : ieqs) (t eta : option R) : Prop :=
  match q with
  | IT _ _ te => te = true /\ eta = None
  | IN _ _ tm te => (tm = true /\ t = None) \/ (te = true /\ eta = None)
  | IOther _ _ _ _ => False
  end.
(** the value that belongs to each variable name *)
Definition expected (ic : icobj) (name : string) : option fl :=
  if String.eqb name "phi" then Some (Fin (ic_phi ic))
  else if String.eqb name "dphidt" then ic_dphi ic
  else if String.eqb name "dphidN" then ic_dphi ic
  else if String.eqb name "_N" then Some (ic_N ic)
  else if String.eqb name "t" then option_map Fin (ic_t ic)
  else if String.eqb name "eta" then option_map Fin (ic_eta ic) else None.
(** y holds every registered variable's value *)
Definition filled (ic : icobj) (y : list fl) : Prop :=
  List.length y = List.length (ie_idx (ic_eqs ic)) /\
  forall name, In name (map fst (ie_idx (ic_eqs ic))) -> exists v, expected ic name = Some v /\ component (ie_idx (ic_eqs ic)) name y = Ok v.

Lemma filled_intro ic y : List.length y = List.length (ie_idx (ic_eqs ic)) ->
  Forall (fun name => exists v, expected ic name = Some v /\ component (ie_idx (ic_eqs ic)) name y = Ok v) (map fst (ie_idx (ic_eqs ic))) -> filled ic y.
Proof. intros L F. split; [exact L|]. apply Forall_forall. exact F. Qed.
Ltac fill := apply filled_intro; [reflexivity|]; cbn; repeat (apply Forall_cons; [eexists; split; reflexivity|]); apply Forall_nil.

Lemma len2 {A} (l : list A) : List.length l = 2%nat -> exists a b, l = [a; b].
Proof. destruct l as [|a [|b [|]]]; try discriminate. eauto. Qed.
Lemma len3 {A} (l : list A) : List.length l = 3%nat -> exists a b c, l = [a; b; c].
Proof. destruct l as [|a [|b [|c [|]]]]; try discriminate. eauto. Qed.
Lemma len4 {A} (l : list A) : List.length l = 4%nat -> exists a b c d, l = [a; b; c; d].
Proof. destruct l as [|a [|b [|c [|d [|]]]]]; try discriminate. eauto 6. Qed.
Ltac lenn H := first [apply len2 in H; destruct H as [? [? ->]] | apply len3 in H; destruct H as [? [? [? ->]]] | apply len4 in H; destruct H as [? [? [? [? ->]]]]].


Ltac solve_call M :=
  first [ exfalso; destruct M; discriminate | exfalso; apply M; split; reflexivity
        | exfalso; destruct M as [[? ?]|[? ?]]; discriminate | exfalso; apply M; left; split; reflexivity | exfalso; apply M; right; split; reflexivity
        | let y0 := fresh "y0" in let L := fresh "L" in intros y0 L; cbn in L; lenn L; reflexivity
        | eexists; split; [|let y0 := fresh "y0" in let L := fresh "L" in intros y0 L; cbn in L; lenn L;
            cbv -[Rplus Rmult Ropp Rinv IZR Rlt_dec Req_EM_T sqrt exp ln fsqrt fmul fneg fdiv fexp pV pdV]; reflexivity]; fill ].

Lemma sr_call_spec q phi t eta xe input n o aH : is_other q = false ->
  let ic := sr_obj q phi t eta xe input n o aH in
  (missing q t eta -> forall y0, List.length y0 = List.length (ie_idx q) -> sr_call ic y0 = Raise AssertionError) /\
  (~ missing q t eta -> exists y, filled ic y /\ forall y0, List.length y0 = List.length (ie_idx q) -> sr_call ic y0 = Ok y).
Proof.
  intros Hq ic. destruct q as [K U te|K U tm te|K U ix te]; [| |discriminate].
  - destruct te, eta as [e|]; split; intros M; solve_call M.
  - destruct tm, te, t as [t|], eta as [e|]; split; intros M; solve_call M.
Qed.
Theorem C32_slow_roll : forall q phi t eta xe kw ic,
  is_other q = false -> sr_init q phi t eta xe kw = Ok ic ->
  (missing q t eta -> forall y0, List.length y0 = List.length (ie_idx q) -> sr_call ic y0 = Raise AssertionError) /\
  (~ missing q t eta -> exists y, filled ic y /\ forall y0, List.length y0 = List.length (ie_idx q) -> sr_call ic y0 = Ok y).
Proof.
  intros q phi t eta xe kw ic Hq E. apply sr_init_obj in E. destruct E as [i [n [o [aH [-> _]]]]]. apply sr_call_spec, Hq.
Qed.

(** closed form of InflationStartIC *)
Definition is_obj (q : ieqs) phi t eta xe input (n o aH H : fl) : icobj := mkic q phi t eta xe input (pV (ie_U q) phi) n o aH H None None.
Lemma is_init_obj q phi t eta xe kw ic : is_init q phi t eta xe kw = Ok ic ->
  exists input n o aH H, ic = is_obj q phi t eta xe input n o aH H /\ kw = kw_of input.
Proof.
  unfold is_init. destruct kw as [[n|] [o|]]; cbn [kw_N kw_O]; try discriminate.
  - set (c := fsub _ _). destruct (flt c (Fin 0)); [discriminate|]. cbn [bind]. intros H. injection H as <-.
    exists (InN n). eexists _, _, _, _. split; reflexivity.
  - destruct (flt (Fin o) (Fin 1)); [|discriminate]. destruct (feq (Fin o) (Fin 0)); [discriminate|]. cbn [bind]. intros H. injection H as <-.
    exists (InO o). eexists _, _, _, _. split; reflexivity.
Qed.
(** the object after __call__ *)
Definition is_obj' (q : ieqs) phi t eta xe input (n o aH H : fl) : icobj :=
  let d := fneg (fsqrt (Fin (pV (ie_U q) phi))) in
  mkic q phi t eta xe input (pV (ie_U q) phi) n o aH H
   (Some (match q with IT _ _ _ => option_map Fin t | _ => Some n end)) (Some (match q with IT _ _ _ => d | _ => fdiv d H end)).
Lemma is_call_spec q phi t eta xe input n o aH H : is_other q = false ->
  let ic := is_obj q phi t eta xe input n o aH H in let ic' := is_obj' q phi t eta xe input n o aH H in
  (missing q t eta -> forall y0, List.length y0 = List.length (ie_idx q) -> is_call ic y0 = Raise AssertionError) /\
  (~ missing q t eta -> exists y, filled ic' y /\ forall y0, List.length y0 = List.length (ie_idx q) -> is_call ic y0 = Ok (ic', y)).
Proof.
  intros Hq ic ic'. destruct q as [K U te|K U tm te|K U ix te]; [| |discriminate].
  - destruct te, eta as [e|]; split; intros M; solve_call M.
  - destruct tm, te, t as [t|], eta as [e|]; split; intros M; solve_call M.
Qed.
Theorem C32_inflation_start : forall q phi t eta xe kw ic,
  is_other q = false -> is_init q phi t eta xe kw = Ok ic ->
  (missing q t eta -> forall y0, List.length y0 = List.length (ie_idx q) -> is_call ic y0 = Raise AssertionError) /\
  (~ missing q t eta -> exists ic' y, ic_eqs ic' = q /\ ic_phi ic' = phi /\ ic_N ic' = ic_N ic /\ ic_t ic' = t /\ ic_eta ic' = eta /\ filled ic' y /\
      forall y0, List.length y0 = List.length (ie_idx q) -> is_call ic y0 = Ok (ic', y)).
Proof.
  intros q phi t eta xe kw ic Hq E. apply is_init_obj in E. destruct E as [i [n [o [aH [H [-> _]]]]]].
  destruct (is_call_spec q phi t eta xe i n o aH H Hq) as [A B]. split; [exact A|]. intros M. destruct (B M) as [y [F C]].
  exists (is_obj' q phi t eta xe i n o aH H), y. repeat split; [apply F|apply F|exact C].
Qed.
Theorem C32_other_equations : forall q ic y0, is_other q = true -> ic_eqs ic = q ->
  sr_call ic y0 = Raise NotImplementedError /\ is_call ic y0 = Raise NotImplementedError.
Proof. intros q ic y0 Hq E. unfold sr_call, is_call. rewrite E. destruct q; try discriminate. split; reflexivity. Qed.
Theorem C32_nonvacuous : ~ missing (IN 1 Uex true true) (Some 1) (Some 0) /\ missing (IT 1 Uex true) (Some 1) None.
Proof. split; [intros [[_ H]|[_ H]]; discriminate|split; reflexivity]. Qed.

(** ** C31 *)
(** keyword values for which the start is possible: (aH)^2 > 0 *)
Definition admissible (K V : R) (i : icinput) : Prop :=
  match i with InN n => 0 < V / 2 * exp (2 * n) - K | InO o => o < 1 /\ 0 < - K / o end.

Lemma is_from_N q phi t eta xe n : let V := pV (ie_U q) phi in let K := ie_K q in
  0 < V / 2 * exp (2 * n) - K ->
  is_init q phi t eta xe (kw_of (InN n)) =
  Ok (is_obj q phi t eta xe (InN n) (Fin n) (Fin (- K / (V / 2 * exp (2 * n) - K))) (Fin (sqrt (V / 2 * exp (2 * n) - K)))
        (Fin (sqrt (V / 2 - K * exp (-2 * n))))).
Proof.
  intros V K P. unfold is_init. cbn [kw_of kw_N kw_O]. fold V K. rewrite fdiv_fin by lra. cbn [fexp fmul fsub].
  rewrite flt_false by lra. rewrite fsqrt_fin by lra. cbn [fmul].
  rewrite sqrt_sqrt by lra. rewrite fdiv_fin by lra. cbn [bind fmul fexp fsub].
  rewrite fsqrt_fin; [reflexivity|].
  replace (V / 2 - K * exp (-2 * n)) with ((V / 2 * exp (2 * n) - K) * exp (-2 * n)).
  - apply Rlt_le, Rmult_lt_0_compat; [exact P|apply exp_pos].
  - rewrite exp_2, exp_m2. field. apply Rgt_not_eq, exp_pos.
Qed.
Lemma is_from_O q phi t eta xe o : let V := pV (ie_U q) phi in let K := ie_K q in
  0 < V -> o < 1 -> 0 < - K / o -> let n := ln (2 * K / V * (1 - 1 / o)) / 2 in
  is_init q phi t eta xe (kw_of (InO o)) =
  Ok (is_obj q phi t eta xe (InO o) (Fin n) (Fin o) (Fin (sqrt (- K / o))) (Fin (sqrt (V / 2 - K * exp (-2 * n))))) /\
  V / 2 * exp (2 * n) - K = - K / o.
Proof.
  intros V K HV Ho P n. destruct (omega_range K o P) as [o0 _]. pose proof (log_arg 2 K V o ltac:(lra) HV Ho P) as A.
  assert (E : V / 2 * exp (2 * n) - K = - K / o). { unfold n. rewrite exp_half_ln by exact A. field. lra. }
  split; [|exact E].
  unfold is_init. cbn [kw_of kw_N kw_O]. fold V K.
  rewrite flt_true by lra. rewrite feq_false by assumption. rewrite !fdiv_fin by lra. cbn [fmul fsub].
  rewrite flog_fin by exact A. rewrite fdiv_fin by lra. rewrite fsqrt_fin by lra. cbn [bind fmul fexp fsub]. fold n.
  rewrite fsqrt_fin; [reflexivity|].
  replace (V / 2 - K * exp (-2 * n)) with ((V / 2 * exp (2 * n) - K) * exp (-2 * n)).
  - rewrite E. apply Rlt_le, Rmult_lt_0_compat; [exact P|apply exp_pos].
  - rewrite exp_2, exp_m2. field. apply Rgt_not_eq, exp_pos.
Qed.
Lemma is_consistent q phi t eta xe i n : let V := pV (ie_U q) phi in let K := ie_K q in
  let A := V / 2 * exp (2 * n) - K in 0 < A ->
  consistent_start K (3/2 * V) (is_obj q phi t eta xe i (Fin n) (Fin (- K / A)) (Fin (sqrt A)) (Fin (sqrt (V / 2 - K * exp (-2 * n))))).
Proof.
  intros V K A P. set (B := V / 2 - K * exp (-2 * n)).
  assert (EB : A = B * (exp n)^2). { unfold A, B. rewrite exp_2, exp_m2. field. apply Rgt_not_eq, exp_pos. }
  assert (PB : 0 < B). { apply (Rmult_lt_reg_r ((exp n)^2)); [apply pow_lt, exp_pos|]. rewrite Rmult_0_l, <- EB. exact P. }
  exists n, (- K / A), (sqrt A), (sqrt B). repeat split; try reflexivity.
  - apply sqrt_lt_R0, PB.
  - rewrite EB, sqrt_mult_alt by lra. rewrite sqrt_pow2 by (apply Rlt_le, exp_pos). ring.
  - rewrite pow2_sqrt by lra. unfold B. field.
  - rewrite pow2_sqrt by lra. reflexivity.
Qed.

(** the start data are those of the instant where the energy density is dphi^2/2 + V = 3V/2 *)
Theorem C31_start_data : forall q phi t eta xe i, let V := pV (ie_U q) phi in let K := ie_K q in
  0 < V -> admissible K V i ->
  exists ic, is_init q phi t eta xe (kw_of i) = Ok ic /\ consistent_start K (3/2 * V) ic /\
    match i with InN n => ic_N ic = Fin n | InO o => ic_O ic = Fin o end.
Proof.
  intros q phi t eta xe i V K HV HA. destruct i as [n|o]; cbn [admissible] in HA.
  - eexists. split; [apply is_from_N; exact HA|]. split; [apply is_consistent; exact HA|reflexivity].
  - destruct HA as [Ho P]. destruct (is_from_O q phi t eta xe o HV Ho P) as [E1 E2]. fold V K in E1, E2.
    eexists. split; [exact E1|]. split; [|reflexivity]. destruct (omega_range K o P) as [o0 K0].
    pose proof (is_consistent q phi t eta xe (InO o) (ln (2 * K / V * (1 - 1 / o)) / 2)) as C. cbv zeta in C. fold V K in C.
    rewrite E2 in C. replace (- K / (- K / o)) with o in C by (field; lra). apply C, P.
Qed.
(** the state written by __call__ *)
Definition state_of (r : res (icobj * list fl)) : res (list fl) := match r with Ok p => Ok (snd p) | Raise e => Raise e end.
Lemma is_call_same a b y0 : same_data a b -> state_of (is_call a y0) = state_of (is_call b y0).
Proof.
  intros [E1 [E2 [E3 [E4 [E5 [E6 [E7 [E8 [E9 [E10 _]]]]]]]]]]. unfold is_call. rewrite E1, E2, E3, E4, E5, E6, E7, E8, E9, E10. destruct (ic_eqs b).
  all: unfold bind.
  all: repeat (cbn [fst snd]; match goal with
         | |- context [match assign_opt ?a ?b ?c ?d with _ => _ end] => destruct (assign_opt a b c d) eqn:?
         | |- context [match assign ?a ?b ?c ?d with _ => _ end] => destruct (assign a b c d) eqn:?
         | |- context [if ?b then _ else _] => destruct b
         end); try reflexivity.
Qed.
(** N_i and Omega_Ki are interchangeable *)
Theorem C31_interchange : forall q phi t eta xe i ic N Om, let V := pV (ie_U q) phi in let K := ie_K q in
  0 < V -> K <> 0 -> admissible K V i -> is_init q phi t eta xe (kw_of i) = Ok ic -> ic_N ic = Fin N -> ic_O ic = Fin Om ->
  exists ic1 ic2, is_init q phi t eta xe (kw_of (InN N)) = Ok ic1 /\ is_init q phi t eta xe (kw_of (InO Om)) = Ok ic2 /\
    same_data ic ic1 /\ same_data ic ic2 /\
    forall y0, state_of (is_call ic1 y0) = state_of (is_call ic y0) /\ state_of (is_call ic2 y0) = state_of (is_call ic y0).
Proof.
  intros q phi t eta xe i ic N Om V K HV HK HA E EN EO.
  assert (X : let A := V / 2 * exp (2 * N) - K in 0 < A /\ Om = - K / A /\ exists i', ic = is_obj q phi t eta xe i' (Fin N) (Fin Om) (Fin (sqrt A)) (Fin (sqrt (V / 2 - K * exp (-2 * N))))).
  { destruct i as [n|o]; cbn [admissible] in HA.
    - rewrite is_from_N in E by exact HA. injection E as <-. unfold is_obj in EN, EO. cbn [ic_N ic_O] in EN, EO. injection EN as <-. injection EO as <-.
      split; [exact HA|]. split; [reflexivity|]. eexists. reflexivity.
    - destruct HA as [Ho P]. destruct (is_from_O q phi t eta xe o HV Ho P) as [E1 E2]. fold V K in E1, E2. rewrite E1 in E. injection E as <-.
      unfold is_obj in EN, EO. cbn [ic_N ic_O] in EN, EO. injection EN as <-. injection EO as <-. destruct (omega_range K o P) as [o0 _].
      cbv zeta. rewrite E2. split; [exact P|]. split; [field; lra|]. eexists. reflexivity. }
  destruct X as [PA [EOm [i' ->]]]. set (A := V / 2 * exp (2 * N) - K) in *.
  assert (B : 0 < V / 2 * exp (2 * N)) by (apply Rmult_lt_0_compat; [lra|apply exp_pos]).
  assert (O1 : Om < 1). { rewrite EOm. apply (Rmult_lt_reg_r A); [exact PA|]. replace (- K / A * A) with (- K) by (field; lra). unfold A. lra. }
  assert (KO : - K / Om = A). { rewrite EOm. field. split; lra. }
  assert (PO : 0 < - K / Om) by (rewrite KO; exact PA).
  pose proof (is_from_N q phi t eta xe N PA) as F1. fold V K in F1. fold A in F1. rewrite <- EOm in F1.
  destruct (is_from_O q phi t eta xe Om HV O1 PO) as [F2 _]. fold V K in F2. rewrite KO in F2.
  assert (EN' : ln (2 * K / V * (1 - 1 / Om)) / 2 = N).
  { apply ln_half_exp. rewrite EOm. replace (2 * K / V * (1 - 1 / (- K / A))) with (2 / V * (A + K)) by (field; repeat split; lra).
    unfold A. field. lra. }
  rewrite EN' in F2. eexists _, _. split; [exact F1|]. split; [exact F2|]. split; [repeat split|]. split; [repeat split|].
  intros y0. split; apply is_call_same; repeat split.
Qed.

Lemma component_var idx name y v : component idx name (map Fin y) = Ok (Fin v) -> var idx name y = v.
Proof.
  unfold component, var, pos_of. destruct (dict_get name idx) as [i|]; [|discriminate].
  rewrite nth_error_map. destruct (nth_error y i) as [z|] eqn:E; cbn; [|discriminate]. intros H. injection H as <-.
  apply nth_error_nth. exact E.
Qed.
(** what the filled state contains *)
Lemma is_state q phi t eta xe i ic ic' y0 y : is_other q = false ->
  is_init q phi t eta xe i = Ok ic -> List.length y0 = List.length (ie_idx q) -> is_call ic y0 = Ok (ic', y) ->
  filled ic' y /\ ic_eqs ic' = q /\ ic_phi ic' = phi /\ ic_N ic' = ic_N ic /\
  ic_dphi ic' = Some (match q with IT _ _ _ => fneg (fsqrt (Fin (pV (ie_U q) phi))) | _ => fdiv (fneg (fsqrt (Fin (pV (ie_U q) phi)))) (ic_H ic) end) /\
  ic_x_ini ic' = Some (match q with IT _ _ _ => option_map Fin t | _ => Some (ic_N ic) end).
Proof.
  intros Hq E L C. apply is_init_obj in E. destruct E as [j [n [o [aH [H [-> _]]]]]].
  destruct (is_call_spec q phi t eta xe j n o aH H Hq) as [A B]. cbv zeta in A, B.
  assert (M : ~ missing q t eta) by (intros M; rewrite (A M y0 L) in C; discriminate).
  destruct (B M) as [y' [F G]]. rewrite (G y0 L) in C. injection C as <- <-. split; [exact F|]. repeat split.
Qed.

(** cosmic time: the state is exactly at the onset of inflation and its H is H_i *)
Theorem C31_time : forall K U te phi t eta xe i ic y0 ic' y x, let V := pV U phi in
  0 < V -> admissible K V i -> is_init (IT K U te) phi t eta xe (kw_of i) = Ok ic ->
  List.length y0 = List.length (T_idx te) -> is_call ic y0 = Ok (ic', map Fin y) ->
  T_inflating U te x y = 0 /\ var (T_idx te) "dphidt" y < 0 /\
  0 < T_H2 K U te x y /\ ic_H ic = Fin (sqrt (T_H2 K U te x y)).
Proof.
  intros K U te phi t eta xe i ic y0 ic' y x V HV HA E L C.
  destruct (C31_start_data (IT K U te) phi t eta xe i HV HA) as [ic1 [E1 [CS _]]]. rewrite E in E1. injection E1 as <-.
  destruct CS as [N [Om [aH [H [EN [EO [EA [EH [PH [_ [H2 _]]]]]]]]]]]. cbn [ie_U ie_K] in H2. fold V in H2.
  destruct (is_state (IT K U te) phi t eta xe _ ic ic' y0 _ eq_refl E L C) as [[_ F] [F1 [F2 [F3 [F4 _]]]]]. rewrite F1 in F. cbn [ie_idx ie_U] in F, F4. fold V in F4.
  rewrite fsqrt_fin in F4 by lra. cbn [fneg] in F4.
  assert (EP : var (T_idx te) "phi" y = phi).
  { destruct (F "phi") as [v [Fe Fc]]; [destruct te; cbn; tauto|]. unfold expected in Fe. cbn [String.eqb Ascii.eqb Bool.eqb] in Fe. rewrite F2 in Fe. injection Fe as <-. apply component_var, Fc. }
  assert (ED : var (T_idx te) "dphidt" y = - sqrt V).
  { destruct (F "dphidt") as [v [Fe Fc]]; [destruct te; cbn; tauto|]. unfold expected in Fe. cbn [String.eqb Ascii.eqb Bool.eqb] in Fe. rewrite F4 in Fe. injection Fe as <-. apply component_var, Fc. }
  assert (EV : var (T_idx te) "_N" y = N).
  { destruct (F "_N") as [v [Fe Fc]]; [destruct te; cbn; tauto|]. unfold expected in Fe. cbn [String.eqb Ascii.eqb Bool.eqb] in Fe. rewrite F3, EN in Fe. injection Fe as <-. apply component_var, Fc. }
  assert (EH2 : T_H2 K U te x y = H^2).
  { unfold T_H2, T_get_H2. rewrite EP, ED, EV. fold V. rewrite H2. replace ((- sqrt V)^2) with V by (rewrite <- (pow2_sqrt V) at 1 by lra; ring). field. }
  split; [|split; [|split]].
  - unfold T_inflating. rewrite EP, ED. fold V. replace ((- sqrt V)^2) with V by (rewrite <- (pow2_sqrt V) at 1 by lra; ring). ring.
  - rewrite ED. pose proof (sqrt_lt_R0 V HV). lra.
  - rewrite EH2. nra.
  - rewrite EH2, sqrt_pow2 by lra. exact EH.
Qed.
(** e-folds: the same, unless Omega_Ki = -2, where dphi/dN^2 = 6 and the e-fold expression for H^2 is 0/0 *)
Theorem C31_efolds : forall K U tm te phi t eta xe i ic y0 ic' y x, let V := pV U phi in
  0 < V -> admissible K V i -> is_init (IN K U tm te) phi t eta xe (kw_of i) = Ok ic ->
  List.length y0 = List.length (N_idx tm te) -> is_call ic y0 = Ok (ic', map Fin y) -> ic_x_ini ic' = Some (Some (Fin x)) ->
  (ic_O ic <> Fin (-2) ->
    N_inflating K U tm te x y = 0 /\ var (N_idx tm te) "dphidN" y < 0 /\
    0 < N_H2 K U tm te x y /\ ic_H ic = Fin (sqrt (N_H2 K U tm te x y))) /\
  (ic_O ic = Fin (-2) -> (var (N_idx tm te) "dphidN" y)^2 = 6 /\ 2 * pV U (var (N_idx tm te) "phi" y) - 6 * K * exp (-2 * x) = 0).
Proof.
  intros K U tm te phi t eta xe i ic y0 ic' y x V HV HA E L C EX.
  destruct (C31_start_data (IN K U tm te) phi t eta xe i HV HA) as [ic1 [E1 [CS _]]]. rewrite E in E1. injection E1 as <-.
  destruct CS as [N [Om [aH [H [EN [EO [EA [EH [PH [EaH [H2 EOm]]]]]]]]]]]. cbn [ie_U ie_K] in H2, EOm. fold V in H2.
  destruct (is_state (IN K U tm te) phi t eta xe _ ic ic' y0 _ eq_refl E L C) as [[_ F] [F1 [F2 [F3 [F4 F5]]]]]. rewrite F1 in F. cbn [ie_idx ie_U] in F, F4. fold V in F4.
  rewrite EX, EN in F5. injection F5 as ->.
  rewrite fsqrt_fin in F4 by lra. cbn [fneg] in F4. rewrite EH, fdiv_fin in F4 by lra.
  assert (EP : var (N_idx tm te) "phi" y = phi).
  { destruct (F "phi") as [v [Fe Fc]]; [destruct tm, te; cbn; tauto|]. unfold expected in Fe. cbn [String.eqb Ascii.eqb Bool.eqb] in Fe. rewrite F2 in Fe. injection Fe as <-. apply component_var, Fc. }
  assert (ED : var (N_idx tm te) "dphidN" y = - sqrt V / H).
  { destruct (F "dphidN") as [v [Fe Fc]]; [destruct tm, te; cbn; tauto|]. unfold expected in Fe. cbn [String.eqb Ascii.eqb Bool.eqb] in Fe. rewrite F4 in Fe. injection Fe as <-. apply component_var, Fc. }
  assert (D2 : (- sqrt V / H)^2 = V / H^2).
  { replace V with ((sqrt V)^2) at 2 by (apply pow2_sqrt; lra). field. lra. }
  set (G := K * exp (-2 * N)) in *. assert (HH : 0 < H^2) by nra.
  assert (EG : K = G * (exp N)^2). { unfold G. rewrite exp_m2. field. apply Rgt_not_eq, exp_pos. }
  assert (SG : Om = - G / H^2). { rewrite EOm, EaH, EG at 1. field. split; [lra|apply Rgt_not_eq, exp_pos]. }
  split; intros HO; rewrite EO in HO.
  - assert (NZ : 2 * V - 6 * G <> 0).
    { intros Z. apply HO. f_equal. rewrite SG. assert (V = 3 * G) by lra. assert (H^2 = G / 2) by (rewrite H2; lra).
      rewrite H1. field. intros ->. lra. }
    assert (NZ' : 6 * H^2 - V <> 0). { rewrite H2. intros Z. apply NZ. lra. }
    assert (EH2 : N_H2 K U tm te N y = H^2).
    { unfold N_H2, N_get_H2. rewrite EP, ED, D2. fold V. replace (6 * K * exp (-2 * N)) with (6 * G) by (unfold G; ring).
      replace (2 * V - 6 * G) with (6 * H^2 - V) by (rewrite H2; lra). field. split; [lra|exact NZ']. }
    split; [|split; [|split]].
    + unfold N_inflating. rewrite EH2, EP, ED, D2. fold V. field. lra.
    + rewrite ED. pose proof (sqrt_lt_R0 V HV). assert (0 < sqrt V / H) by (apply Rdiv_lt_0_compat; assumption). replace (- sqrt V / H) with (- (sqrt V / H)) by (field; lra). lra.
    + rewrite EH2. exact HH.
    + rewrite EH2, sqrt_pow2 by lra. exact EH.
  - apply fin_inj in HO. rewrite SG in HO. assert (G = 2 * H^2). { apply (f_equal (fun z => - z * H^2)) in HO. field_simplify in HO; lra. }
    assert (V = 6 * H^2) by (rewrite H2 in *; lra). split.
    + rewrite ED, D2, H1. field. lra.
    + rewrite EP. fold V. replace (6 * K * exp (-2 * N)) with (6 * G) by (unfold G; ring). lra.
Qed.
Theorem C31_nonvacuous : admissible 1 (pV Uex 0) (InN 3) /\ admissible (-1) (pV Uex 0) (InO (1/2)) /\ 0 < pV Uex 0.
Proof.
  cbn [admissible pV Uex]. split; [|lra]. pose proof (exp_ineq1 6 ltac:(lra)). replace (2 * 3) with 6 by ring. lra.
Qed.

(** ** C33 *)
(** which keyword combinations are rejected *)
Theorem C33_keywords : forall q phi t eta xe a b,
  sr_init q phi t eta xe (mkkw (Some a) (Some b)) = Raise TypeError /\ sr_init q phi t eta xe (mkkw None None) = Raise TypeError /\
  is_init q phi t eta xe (mkkw (Some a) (Some b)) = Raise AssertionError /\ is_init q phi t eta xe (mkkw None None) = Raise TypeError.
Proof. intros. repeat split. Qed.
(** the guards: InflationStartError exactly for negative (aH)^2 (with N_i) and Omega_Ki >= 1 *)
Definition guarded (c K V : R) (i : icinput) : Prop :=
  match i with InN n => V / c * exp (2 * n) - K < 0 | InO o => 1 <= o end.
Theorem C33_guards : forall q phi t eta xe i,
  (sr_init q phi t eta xe (kw_of i) = Raise InflationStartError <-> guarded 3 (ie_K q) (pV (ie_U q) phi) i) /\
  (is_init q phi t eta xe (kw_of i) = Raise InflationStartError <-> guarded 2 (ie_K q) (pV (ie_U q) phi) i).
Proof.
  intros q phi t eta xe i. unfold sr_init, is_init. destruct i as [n|o]; cbn [kw_of kw_N kw_O guarded].
  - rewrite !fdiv_fin by lra. cbn [fexp fmul fsub]. set (A := _ / 3 * _ - _). set (B := _ / 2 * _ - _). split.
    + destruct (flt (Fin A) (Fin 0)) eqn:F; [apply flt_iff in F; tauto|]. split; [cbn [bind]; destruct q; discriminate|]. intros C. apply flt_iff in C. congruence.
    + destruct (flt (Fin B) (Fin 0)) eqn:F; [apply flt_iff in F; tauto|]. split; [cbn [bind]; destruct q; discriminate|]. intros C. apply flt_iff in C. congruence.
  - destruct (flt (Fin o) (Fin 1)) eqn:F.
    + apply flt_iff in F. destruct (feq (Fin o) (Fin 0)); cbn [bind]; split; split; try discriminate; try lra.
    + assert (1 <= o). { destruct (Rle_dec 1 o); [assumption|]. assert (flt (Fin o) (Fin 1) = true) by (apply flt_iff; lra). congruence. }
      split; split; auto.
Qed.
(** all derived quantities are finite real numbers *)
Definition all_finite (ic : icobj) : Prop :=
  isfinite (ic_N ic) = true /\ isfinite (ic_O ic) = true /\ isfinite (ic_aH ic) = true /\ isfinite (ic_H ic) = true.
(** C33 as stated is false of the code: inputs pass the guards and yield infinities or NaN *)
Definition Ulin : potfun := mkpotfun (fun p => p) (fun _ => 1) (fun _ => 0) (fun _ => 0).
Theorem C33_refuted :
  (exists q phi i ic, 0 < pV (ie_U q) phi /\ sr_init q phi None None 1 (kw_of i) = Ok ic /\ ic_O ic = NInf) /\
  (exists q phi i ic, 0 < pV (ie_U q) phi /\ sr_init q phi None None 1 (kw_of i) = Ok ic /\ ic_N ic = NaN) /\
  (exists q phi i ic, 0 < pV (ie_U q) phi /\ is_init q phi None None 1 (kw_of i) = Ok ic /\ ic_O ic = NInf) /\
  (exists q phi i ic, 0 < pV (ie_U q) phi /\ is_init q phi None None 1 (kw_of i) = Ok ic /\ ic_N ic = NaN).
Proof.
  assert (I : inf_of (-(1)) = NInf). { unfold inf_of. destruct (Rlt_dec 0 (-(1))); [lra|]. destruct (Rlt_dec (-(1)) 0); [reflexivity|lra]. }
  split; [|split; [|split]].
  - exists (IT 1 Ulin false), 3, (InN 0). eexists. split; [cbn; lra|].
    unfold sr_init. cbn [kw_of kw_N kw_O ie_U ie_K pV Ulin]. rewrite Rmult_0_r. rewrite (fdiv_fin 3) by lra. cbn [fexp fmul fsub]. rewrite exp_0.
    replace (3 / 3 * 1 - 1) with 0 by field. rewrite flt_false by lra. rewrite fdiv_zero, I. cbn [bind]. split; reflexivity.
  - exists (IT 1 Ulin false), 3, (InO (1/2)). eexists. split; [cbn; lra|].
    unfold sr_init. cbn [kw_of kw_N kw_O ie_U ie_K pV Ulin]. rewrite flt_true by lra. rewrite feq_false by lra. rewrite !(fdiv_fin) by lra. cbn [fmul fsub].
    rewrite flog_neg by lra. cbn [bind]. split; reflexivity.
  - exists (IT 1 Ulin false), 2, (InN 0). eexists. split; [cbn; lra|].
    unfold is_init. cbn [kw_of kw_N kw_O ie_U ie_K pV Ulin]. rewrite Rmult_0_r. rewrite (fdiv_fin 2) by lra. cbn [fexp fmul fsub]. rewrite exp_0.
    replace (2 / 2 * 1 - 1) with 0 by field. rewrite flt_false by lra. rewrite fsqrt_fin, sqrt_0 by lra. cbn [fmul]. rewrite Rmult_0_r, fdiv_zero, I. cbn [bind]. split; reflexivity.
  - exists (IT 1 Ulin false), 3, (InO (1/2)). eexists. split; [cbn; lra|].
    unfold is_init. cbn [kw_of kw_N kw_O ie_U ie_K pV Ulin]. rewrite flt_true by lra. rewrite feq_false by lra. rewrite !(fdiv_fin) by lra. cbn [fmul fsub].
    rewrite flog_neg by lra. cbn [bind]. split; reflexivity.
Qed.
(** exactly which inputs give finite results: strictly positive (aH)^2, i.e. for Omega_Ki the sign opposite to K *)
Definition positive_aH2 (c K V : R) (i : icinput) : Prop :=
  match i with InN n => 0 < V / c * exp (2 * n) - K | InO o => o < 1 /\ 0 < - K / o end.
Lemma log_arg_neg c K V o : 0 < c -> 0 < V -> o < 1 -> o <> 0 -> - K / o <= 0 -> c * K / V * (1 - 1 / o) <= 0.
Proof.
  intros Hc HV Ho o0 P. replace (c * K / V * (1 - 1 / o)) with (- (c / V * ((- (- K / o)) * (1 - o)))) by (field; lra).
  assert (0 < c / V) by (apply Rdiv_lt_0_compat; lra). assert (0 <= (- (- K / o)) * (1 - o)) by (apply Rmult_le_pos; lra).
  assert (0 <= c / V * ((- (- K / o)) * (1 - o))) by (apply Rmult_le_pos; lra). lra.
Qed.
Lemma flog_nonpos x : x <= 0 -> isfinite (fdiv (flog (Fin x)) (Fin 2)) = false.
Proof.
  intros H. simpl. destruct (Rlt_dec 0 x); [lra|]. destruct (Req_EM_T x 0); cbn; [destruct (Rlt_dec 2 0)|]; reflexivity.
Qed.
Lemma fdiv_zero_nf x : isfinite (fdiv (Fin x) (Fin 0)) = false.
Proof. rewrite fdiv_zero. unfold inf_of. destruct (Rlt_dec 0 x); [reflexivity|]. destruct (Rlt_dec x 0); reflexivity. Qed.
Theorem C33_partial : forall q phi t eta xe i, let V := pV (ie_U q) phi in let K := ie_K q in 0 < V ->
  ((exists ic, sr_init q phi t eta xe (kw_of i) = Ok ic /\ all_finite ic) <-> positive_aH2 3 K V i) /\
  ((exists ic, is_init q phi t eta xe (kw_of i) = Ok ic /\ all_finite ic) <-> positive_aH2 2 K V i).
Proof.
  intros q phi t eta xe i V K HV. split; split.
  - intros [ic [E [F1 [F2 _]]]]. destruct i as [n|o]; cbn [positive_aH2].
    + revert E. unfold sr_init. cbn [kw_of kw_N kw_O]. fold V K. rewrite fdiv_fin by lra. cbn [fexp fmul fsub].
      set (A := V / 3 * exp (2 * n) - K). destruct (flt (Fin A) (Fin 0)) eqn:F; [discriminate|]. intros E.
      assert (~ A < 0) by (intros C; apply flt_iff in C; congruence). destruct (Req_dec A 0) as [Z|Z]; [|lra].
      rewrite Z in E. cbn [bind] in E. assert (X : ic_O ic = fdiv (Fin (- K)) (Fin 0)) by (destruct q; injection E as <-; reflexivity).
      rewrite X, fdiv_zero_nf in F2. discriminate.
    + revert E. unfold sr_init. cbn [kw_of kw_N kw_O]. fold V K. destruct (flt (Fin o) (Fin 1)) eqn:F; [|discriminate]. apply flt_iff in F.
      destruct (feq (Fin o) (Fin 0)) eqn:Z; [discriminate|]. assert (o0 : o <> 0) by (intros C; apply feq_iff in C; congruence).
      rewrite !(fdiv_fin _ o), !(fdiv_fin _ V) by lra. cbn [fmul fsub bind]. intros E. split; [exact F|].
      destruct (Rlt_dec 0 (- K / o)) as [P|P]; [exact P|]. exfalso.
      assert (X : isfinite (ic_N ic) = false).
      { destruct q; injection E as <-; cbn [ic_N]; apply flog_nonpos, log_arg_neg; lra. }
      congruence.
  - intros P. destruct i as [n|o]; cbn [positive_aH2] in P.
    + eexists. split; [apply sr_from_N; exact P|]. repeat split.
    + eexists. split; [apply sr_from_O; [exact HV|apply P|apply P]|]. repeat split.
  - intros [ic [E [F1 [F2 _]]]]. destruct i as [n|o]; cbn [positive_aH2].
    + revert E. unfold is_init. cbn [kw_of kw_N kw_O]. fold V K. rewrite fdiv_fin by lra. cbn [fexp fmul fsub].
      set (A := V / 2 * exp (2 * n) - K). destruct (flt (Fin A) (Fin 0)) eqn:F; [discriminate|]. intros E.
      assert (~ A < 0) by (intros C; apply flt_iff in C; congruence). destruct (Req_dec A 0) as [Z|Z]; [|lra].
      rewrite Z in E. rewrite fsqrt_fin, sqrt_0 in E by lra. cbn [bind fmul] in E. rewrite Rmult_0_r in E.
      assert (X : ic_O ic = fdiv (Fin (- K)) (Fin 0)) by (injection E as <-; reflexivity).
      rewrite X, fdiv_zero_nf in F2. discriminate.
    + revert E. unfold is_init. cbn [kw_of kw_N kw_O]. fold V K. destruct (flt (Fin o) (Fin 1)) eqn:F; [|discriminate]. apply flt_iff in F.
      destruct (feq (Fin o) (Fin 0)) eqn:Z; [discriminate|]. assert (o0 : o <> 0) by (intros C; apply feq_iff in C; congruence).
      rewrite !(fdiv_fin _ o), !(fdiv_fin _ V) by lra. cbn [fmul fsub bind]. intros E. split; [exact F|].
      destruct (Rlt_dec 0 (- K / o)) as [P|P]; [exact P|]. exfalso.
      assert (X : isfinite (ic_N ic) = false).
      { injection E as <-; cbn [ic_N]; apply flog_nonpos, log_arg_neg; lra. }
      congruence.
  - intros P. destruct i as [n|o]; cbn [positive_aH2] in P.
    + eexists. split; [apply is_from_N; exact P|]. repeat split.
    + destruct P as [Ho P]. eexists. split; [apply is_from_O; [exact HV|exact Ho|exact P]|]. repeat split.
Qed.

(** ** C34 *)
Definition is_untilN (e : event) : bool := match e with UntilN _ => true | _ => false end.
Definition eqs_ie (q : ieqs) : eqs := match q with IT K U te => T_eqs K U te | IN K U tm te => N_eqs K U tm te | IOther K U _ te => T_eqs K U te end.
(** e-folds along the run, at the last and first sample *)
Definition efolds (q : ieqs) (r : raw_sol) : list R := zipw (e_N (eqs_ie q)) (r_t r) (r_y r).
Definition N_last (q : ieqs) (r : raw_sol) : R := last (efolds q r) 0.
(** scipy's contract for the shooting runs: well-formed output, a fired terminal event stops the
    run (so UntilN leaves the last sample at its value, and the terminal end event fires at most once) *)
Definition shoot_contract (q : ieqs) (until : R) (r : raw_sol) : Prop :=
  ivp_ok (List.length (ie_idx q)) 4 r /\
  (recorded is_untilN (shoot_events until) r <> [] -> N_last q r = until) /\
  (List.length (recorded (is_inflation (-1) true) (shoot_events until) r) <= 1)%nat.

Lemma all_R_map y : all_R (map Fin y) = Ok y.
Proof. induction y as [|a y IH]; [reflexivity|]. cbn. rewrite IH. reflexivity. Qed.
Lemma last_of_map {A B} (f : A -> B) l d : l <> [] -> last_of (map f l) = Ok (f (last l d)).
Proof.
  intros H. destruct (exists_last H) as [l' [a ->]]. rewrite map_app. unfold last_of. rewrite rev_app_distr. cbn. rewrite last_last. reflexivity.
Qed.
Lemma zipw_nonnil {A B C} (f : A -> B -> C) l m : l <> [] -> List.length l = List.length m -> zipw f l m <> [].
Proof. destruct l, m; try discriminate; intros; congruence. Qed.
Lemma inflation_eqs_ie q : is_other q = false -> inflation_eqs (eqs_ie q) /\ eqs_of q = Ok (eqs_ie q) /\ e_idx (eqs_ie q) = ie_idx q.
Proof. destruct q; cbn; intros; try discriminate; (split; [|split; reflexivity]); [left|right]; repeat eexists. Qed.

(** whether the terminal end event fired exactly at the first sample *)
Definition ended_at_start (q : ieqs) (until : R) (r : raw_sol) : Prop :=
  exists x y, recorded (is_inflation (-1) true) (shoot_events until) r = [(x, y)] /\ Some (e_N (eqs_ie q) x y) = hd_error (efolds q r).

Theorem C34_objective : forall fmt_e ivp verbose q t eta xe input T phi,
  is_other q = false -> 0 < T ->
  let f := phii2Ntot fmt_e ivp verbose q t eta xe input T in
  (is_init q phi t eta xe (kw_of input) = Raise InflationStartError -> f phi = Ok (Fin (- T))) /\
  (forall ic Ni ic' y0 x0, is_init q phi t eta xe (kw_of input) = Ok ic -> ic_N ic = Fin Ni ->
     is_call ic (repeat (Fin 0) (List.length (ie_idx q))) = Ok (ic', map Fin y0) -> ic_x_ini ic' = Some (Some (Fin x0)) ->
     let until := Ni + T + 10 in let r := fst (ivp q x0 xe y0 (shoot_events until)) in
     let step := snd (ivp q x0 xe y0 (shoot_events until)) in
     shoot_contract q until r ->
     exists s ws nt, solve fmt_e (eqs_ie q) verbose (shoot_events until) r = Ok (s, ws) /\ get_F s "N_tot" = Ok nt /\
     let enough := recorded is_untilN (shoot_events until) r <> [] \/ T <= N_last q r - Ni in
     let failed := recorded is_collapse (shoot_events until) r <> [] \/ ended_at_start q until r in
     (forall n, nt = Fin n -> f phi = Ok (Fin (n - T))) /\
     (isfinite nt = false -> enough -> exists v, f phi = Ok (Fin v) /\ 0 < v) /\
     (isfinite nt = false -> ~ enough -> failed -> f phi = Ok (Fin (- T))) /\
     (isfinite nt = false -> ~ enough -> ~ failed -> f phi = Raise (if step then StepSizeError else PrimpyError))).
Proof.
  intros fmt_e ivp verbose q t eta xe input T phi Hq HT f. split.
  { intros E. unfold f, phii2Ntot. rewrite E. cbn [fsub]. do 2 f_equal. ring. }
  intros ic Ni ic' y0 x0 E EN EC EX until r step [IV [UC EL]].
  destruct (inflation_eqs_ie q Hq) as [IQ [EQ EI]].
  assert (ND : NoDup (map (event_name fmt_e) (shoot_events until))) by (cbn; nodup).
  assert (IV' : ivp_ok (List.length (e_idx (eqs_ie q))) (List.length (shoot_events until)) r) by (rewrite EI; exact IV).
  destruct (solve_ok_full fmt_e (eqs_ie q) verbose (shoot_events until) r IQ ND IV') as [s [ES [SO [dN [GN DN]]]]].
  unfold solved in SO. destruct SO as [_ [_ [_ [_ [_ [_ [_ [_ [S9 [_ [S11 _]]]]]]]]]]].
  eexists s, _, _. split; [exact ES|]. unfold get_F, getattr. rewrite S9. split; [reflexivity|].
  set (nt := fsub _ _) in *. clearbody nt.
  (* the recorded events *)
  destruct IV as [R0 [R1 [L1 [L2 L3]]]].
  destruct (r_t_events r) as [|t0 [|t1 [|t2 [|t3 [|]]]]] eqn:TE; try discriminate L1.
  destruct (r_y_events r) as [|z0 [|z1 [|z2 [|z3 [|]]]]] eqn:YE; try discriminate L2.
  pose proof (L3 1%nat _ _ eq_refl eq_refl) as M1. pose proof (L3 2%nat _ _ eq_refl eq_refl) as M2. pose proof (L3 3%nat _ _ eq_refl eq_refl) as M3.
  pose proof (DN 1%nat _ _ _ eq_refl eq_refl eq_refl) as G1. pose proof (DN 2%nat _ _ _ eq_refl eq_refl eq_refl) as G2. pose proof (DN 3%nat _ _ _ eq_refl eq_refl eq_refl) as G3.
  change (dict_get "Inflation_dir-1_term1" dN = Some (zipw (e_N (eqs_ie q)) t1 z1)) in G1. cbn [event_name] in G2, G3.
  assert (RU : recorded is_untilN (shoot_events until) r = combine t2 z2) by (unfold recorded; rewrite TE, YE; reflexivity).
  assert (RC : recorded is_collapse (shoot_events until) r = combine t3 z3) by (unfold recorded; rewrite TE, YE; reflexivity).
  assert (RE : recorded (is_inflation (-1) true) (shoot_events until) r = combine t1 z1) by (unfold recorded; rewrite TE, YE; reflexivity).
  assert (NN : efolds q r <> []) by (apply zipw_nonnil; assumption).
  fold (efolds q r) in S11.
  assert (EF : forall v, f phi = v <-> (if isfinite nt then Ok (fsub nt (Fin T)) else
     if (nonempty (zipw (e_N (eqs_ie q)) t2 z2) || fle (Fin T) (Fin (N_last q r - Ni)))%bool then Ok (Fin (N_last q r - Ni))
     else do e <- (if nonempty (zipw (e_N (eqs_ie q)) t3 z3) then Ok true else
                   do n0 <- head_of (map Fin (efolds q r)); truth_eq (zipw (e_N (eqs_ie q)) t1 z1) n0);
          if e then Ok (fsub (Fin 0) (Fin T)) else if step then Raise StepSizeError else Raise PrimpyError) = v).
  { intros v. unfold f, phii2Ntot. rewrite E, EN. cbn [bind]. fold until. unfold run_solve.
    assert (EQI : ic_eqs ic = q /\ ic_x_end ic = xe). { apply is_init_obj in E. destruct E as [? [? [? [? [? [-> _]]]]]]. split; reflexivity. }
    destruct EQI as [-> ->]. rewrite EC. cbn [bind fst snd]. rewrite EQ. cbn [bind]. rewrite EX. cbn [attr_of bind]. rewrite all_R_map. cbn [bind].
    fold r. rewrite ES. cbn [bind fst snd]. fold step. unfold get_F at 1, getattr at 1. rewrite S9. cbn [bind as_F]. 
    destruct (isfinite nt); [tauto|]. unfold get_DT at 1, getattr at 1. rewrite GN. cbn [bind as_DT]. unfold item at 1. rewrite G2. cbn [bind].
    unfold get_A at 1, getattr at 1. rewrite S11. cbn [bind as_A]. rewrite (last_of_map Fin (efolds q r) 0 NN). cbn [bind fsub]. fold (N_last q r).
    destruct (_ || _)%bool; [tauto|]. unfold item at 1. rewrite G3. cbn [bind]. destruct (nonempty _); [tauto|].
    unfold item. rewrite G1. cbn [bind]. tauto. }
  assert (NE : forall (a : list R) (b : list (list R)), List.length a = List.length b -> nonempty (zipw (e_N (eqs_ie q)) a b) = true <-> combine a b <> []).
  { intros [|a la] [|b lb]; cbn; intros HL; try discriminate; split; intros HX; try congruence; discriminate. }
  cbv zeta. rewrite RU, RC.
  split; [|split; [|split]].
  - intros n ->. apply EF. reflexivity.
  - intros NF En. exists (N_last q r - Ni). rewrite EF, NF. rewrite RU in UC.
    assert (B : (nonempty (zipw (e_N (eqs_ie q)) t2 z2) || fle (Fin T) (Fin (N_last q r - Ni)))%bool = true).
    { apply orb_true_iff. destruct En as [En|En]; [left; apply NE; assumption|right; apply fle_iff; exact En]. }
    rewrite B. split; [reflexivity|]. destruct En as [En|En]; [rewrite (UC En); unfold until; lra|lra].
  - intros NF En Fa. rewrite EF, NF.
    assert (B : (nonempty (zipw (e_N (eqs_ie q)) t2 z2) || fle (Fin T) (Fin (N_last q r - Ni)))%bool = false).
    { apply orb_false_iff. split; [destruct (nonempty _) eqn:X; [|reflexivity]; exfalso; apply En; left; apply NE; assumption|].
      destruct (fle _ _) eqn:X; [|reflexivity]. apply fle_iff in X. exfalso. apply En. right. exact X. }
    rewrite B. replace (- T) with (0 - T) by ring. destruct (nonempty (zipw (e_N (eqs_ie q)) t3 z3)) eqn:C; [reflexivity|].
    destruct Fa as [Fa|[x [y [Fa Fb]]]]; [apply NE in Fa; [congruence|assumption]|]. rewrite RE in Fa.
    destruct t1 as [|a1 [|? ?]]; destruct z1 as [|b1 [|? ?]]; try discriminate Fa; try discriminate M1. cbn in Fa. injection Fa as -> ->.
    destruct (efolds q r) as [|n0 nl]; [congruence|]. cbn in Fb. injection Fb as Fb. cbn [map head_of bind zipw truth_eq]. rewrite feq_true by exact Fb. reflexivity.
  - intros NF En Fa. rewrite EF, NF.
    assert (B : (nonempty (zipw (e_N (eqs_ie q)) t2 z2) || fle (Fin T) (Fin (N_last q r - Ni)))%bool = false).
    { apply orb_false_iff. split; [destruct (nonempty _) eqn:X; [|reflexivity]; exfalso; apply En; left; apply NE; assumption|].
      destruct (fle _ _) eqn:X; [|reflexivity]. apply fle_iff in X. exfalso. apply En. right. exact X. }
    rewrite B. destruct (nonempty (zipw (e_N (eqs_ie q)) t3 z3)) eqn:C; [exfalso; apply Fa; left; apply NE; assumption|].
    unfold ended_at_start in Fa. rewrite RE in EL, Fa. destruct (efolds q r) as [|n0 nl]; [congruence|]. cbn [map head_of bind].
    assert (TF : truth_eq (zipw (e_N (eqs_ie q)) t1 z1) (Fin n0) = Ok false).
    { destruct t1 as [|a1 t1]; destruct z1 as [|b1 z1]; try discriminate M1; [reflexivity|].
      destruct t1 as [|a2 t1]; destruct z1 as [|b2 z1]; try discriminate M1; [|cbn in EL; lia].
      cbn [zipw truth_eq]. destruct (feq _ _) eqn:X; [|reflexivity]. apply feq_iff in X. exfalso. apply Fa. right. exists a1, b1. split; [reflexivity|]. cbn. congruence. }
    rewrite TF. cbn [bind]. destruct step; reflexivity.
Qed.
(** the root the finder looks for: the objective vanishes exactly when the run yields N_tot *)
Theorem C34_zero : forall fmt_e ivp verbose q t eta xe input T phi ic Ni ic' y0 x0,
  is_other q = false -> 0 < T -> is_init q phi t eta xe (kw_of input) = Ok ic -> ic_N ic = Fin Ni ->
  is_call ic (repeat (Fin 0) (List.length (ie_idx q))) = Ok (ic', map Fin y0) -> ic_x_ini ic' = Some (Some (Fin x0)) ->
  let until := Ni + T + 10 in let r := fst (ivp q x0 xe y0 (shoot_events until)) in shoot_contract q until r ->
  (phii2Ntot fmt_e ivp verbose q t eta xe input T phi = Ok (Fin 0) <->
   exists s ws, solve fmt_e (eqs_ie q) verbose (shoot_events until) r = Ok (s, ws) /\ get_F s "N_tot" = Ok (Fin T)).
Proof.
  intros fmt_e ivp verbose q t eta xe input T phi ic Ni ic' y0 x0 Hq HT E EN EC EX until r SC.
  destruct (C34_objective fmt_e ivp verbose q t eta xe input T phi Hq HT) as [_ O].
  destruct (O ic Ni ic' y0 x0 E EN EC EX SC) as [s [ws [nt [ES [GT [A1 [A2 [A3 A4]]]]]]]]. fold until in ES, A2, A3, A4. fold r in ES, A2, A3, A4. clear O.
  split.
  - intros Z. exists s, ws. split; [exact ES|]. rewrite GT. f_equal.
    destruct (isfinite nt) eqn:F. { destruct nt; try discriminate. rewrite (A1 r0 eq_refl) in Z. injection Z as Z. f_equal. lra. }
    exfalso. destruct (classic (recorded is_untilN (shoot_events until) r <> [] \/ T <= N_last q r - Ni)) as [En|En].
    + destruct (A2 eq_refl En) as [v [Ev Pv]]. rewrite Ev in Z. injection Z as Z. lra.
    + destruct (classic (recorded is_collapse (shoot_events until) r <> [] \/ ended_at_start q until r)) as [Fa|Fa].
      * rewrite (A3 eq_refl En Fa) in Z. injection Z as Z. lra.
      * rewrite (A4 eq_refl En Fa) in Z. discriminate.
  - intros [s' [ws' [ES' GT']]]. rewrite ES in ES'. injection ES' as <- <-. rewrite GT in GT'. injection GT' as ->.
    rewrite (A1 T eq_refl). do 2 f_equal. ring.
Qed.

(** a run that inflates from N=0 to N=5 meets the contract, and the objective for T=4 is 1 *)
Theorem C34_nonvacuous : forall fmt_e, let q := IT 0 Uex false in
  let r := mkraw [0; 5] [[0; -1; 0]; [0; 1; 5]] [[]; [5]; []; []] [[]; [[0; 1; 5]]; []; []] in
  let ivp := fun _ _ _ _ _ => (r, false) in
  shoot_contract q (0 + 4 + 10) r /\ phii2Ntot fmt_e ivp true q (Some 0) None 100 (InN 0) 4 0 = Ok (Fin 1).
Proof.
  intros fmt_e q r ivp.
  assert (SC : shoot_contract q (0 + 4 + 10) r).
  { split; [|split; [intros C; exfalso; apply C; reflexivity|cbn; lia]].
    repeat split; try discriminate. intros [|[|[|[|[|j]]]]] te ye; cbn; intros A B; try discriminate; injection A as <-; injection B as <-; reflexivity. }
  split; [exact SC|].
  assert (HV : 0 < pV Uex 0) by (cbn; lra). assert (HA : admissible 0 (pV Uex 0) (InN 0)).
  { cbn [admissible pV Uex]. rewrite Rmult_0_r, exp_0. lra. }
  pose proof (is_from_N q 0 (Some 0) None 100 0 HA) as E.
  destruct (is_call_spec q 0 (Some 0) None 100 (InN 0) (Fin 0) (Fin (- 0 / (pV Uex 0 / 2 * exp (2 * 0) - 0))) (Fin (sqrt (pV Uex 0 / 2 * exp (2 * 0) - 0))) (Fin (sqrt (pV Uex 0 / 2 - 0 * exp (-2 * 0)))) eq_refl) as [_ B].
  destruct B as [y [_ C]]; [intros [D _]; discriminate|].
  specialize (C (repeat (Fin 0) 3) eq_refl). 
  assert (Y : Ok [Fin 0; fneg (fsqrt (Fin (1 + 0^2))); Fin 0] = Ok y) by exact (f_equal state_of C).
  assert (Y' : y = map Fin [0; - sqrt (1 + 0^2); 0]).
  { rewrite fsqrt_fin in Y by lra. cbn [fneg] in Y. cbn [map]. congruence. }
  rewrite Y' in C. clear Y Y'.
  destruct (C34_objective fmt_e ivp true q (Some 0) None 100 (InN 0) 4 0 eq_refl ltac:(lra)) as [_ O].
  destruct (O _ 0 _ [0; - sqrt (1 + 0^2); 0] 0 E eq_refl C eq_refl SC) as [s [ws [nt [ES [GT [A1 _]]]]]].
  rewrite (A1 5).
  - do 2 f_equal. ring.
  - assert (IVP : ivp_ok (List.length (e_idx (eqs_ie q))) 4 r) by apply SC.
    destruct (solve_ok fmt_e (eqs_ie q) true (shoot_events (0+4+10)) r) as [s' [ES' SO]]; [left; repeat eexists|cbn; nodup|exact IVP|].
    cbn [fst ivp] in ES. rewrite ES in ES'. injection ES' as <- _. destruct SO as [_ [_ [_ [_ [_ [_ [_ [_ [S9 _]]]]]]]]].
    unfold get_F, getattr in GT. rewrite S9 in GT. injection GT as <-.
    unfold N_end_of, N_beg_of, end_record, recorded. cbn [r record_of r_t_events r_y_events shoot_events is_inflation is_collapse Z.eqb Pos.eqb Bool.eqb andb combine r_t r_y fst snd].
    rewrite (fle_true 0 _); [cbn; f_equal; ring|]. cbn. unfold T_inflating. cbn. lra.
Qed.

(** ** C35 *)
(** After a successful shooting call the object still has the user's input and the found phi_i,
    and state and object are those of InflationStartIC(phi_i=root, <user's input>). *)
Theorem C35_shooting : forall fmt_e ivp find verbose q bracket t eta xe i ic N_tot y0 ic' y root,
  nt_init q bracket t eta xe (kw_of i) = Ok ic ->
  nt_call fmt_e ivp find verbose ic N_tot bracket y0 = Ok (ic', y, root) ->
  ic_phi ic' = root /\ ic_input ic' = i /\ ic_t ic' = t /\ ic_eta ic' = eta /\ ic_x_end ic' = xe /\ ic_eqs ic' = q /\
  match i with InN n => ic_N ic' = Fin n | InO o => ic_O ic' = Fin o end /\
  find q (phii2Ntot fmt_e ivp verbose q t eta xe i N_tot) bracket = Ok root /\
  exists ic0, is_init q root t eta xe (kw_of i) = Ok ic0 /\ is_call ic0 y0 = Ok (ic', y).
Proof.
  intros fmt_e ivp find verbose q bracket t eta xe i ic N_tot y0 ic' y root E C.
  unfold nt_init in E. destruct (last_of bracket) as [b|]; [|discriminate]. cbn [bind] in E.
  apply is_init_obj in E. destruct E as [j [n [o [aH [H [-> EJ]]]]]].
  assert (i = j) by (destruct i, j; cbn in EJ; congruence). subst j.
  unfold nt_call in C. cbn [is_obj ic_eqs ic_t ic_eta ic_x_end ic_input] in C.
  destruct (find q _ bracket) as [root'|] eqn:F; [|discriminate]. cbn [bind] in C. unfold shoot_finish in C. cbn [is_obj ic_eqs ic_t ic_eta ic_x_end ic_input] in C.
  destruct (is_init q root' t eta xe (kw_of i)) as [ic0|] eqn:E0; [|discriminate]. cbn [bind] in C.
  destruct (is_call ic0 y0) as [[c z]|] eqn:EC; [|discriminate]. cbn [bind] in C. injection C as -> -> ->.
  assert (IN : match i with InN n => ic_N ic0 = Fin n | InO o => ic_O ic0 = Fin o end).
  { clear -E0. unfold is_init in E0. destruct i as [n|o]; cbn [kw_of kw_N kw_O] in E0.
    - set (c := fsub _ _) in E0. destruct (flt c (Fin 0)); [discriminate|]. cbn [bind] in E0. injection E0 as <-. reflexivity.
    - destruct (flt (Fin o) (Fin 1)); [|discriminate]. destruct (feq (Fin o) (Fin 0)); [discriminate|]. cbn [bind] in E0. injection E0 as <-. reflexivity. }
  pose proof E0 as E0'. apply is_init_obj in E0'. destruct E0' as [j [n' [o' [aH' [H' [-> EJ']]]]]].
  assert (i = j) by (destruct i, j; cbn in EJ'; congruence). subst j.
  assert (K : ic_phi ic' = root /\ ic_input ic' = i /\ ic_t ic' = t /\ ic_eta ic' = eta /\ ic_x_end ic' = xe /\ ic_eqs ic' = q /\ ic_N ic' = n' /\ ic_O ic' = o').
  { revert EC. unfold is_call. cbn [is_obj ic_eqs ic_phi ic_t ic_eta ic_x_end ic_input ic_V ic_N ic_O ic_aH ic_H]. unfold bind.
    destruct q; [| |discriminate].
    - repeat match goal with |- context [match assign ?a ?b ?c ?d with _ => _ end] => destruct (assign a b c d); [|discriminate]; cbn [fst snd] end.
      match goal with |- context [if ?b then _ else _] => destruct b end; [destruct (assign_opt _ _ _ _); [|discriminate]|]; intros X; injection X as <- _; repeat split.
    - repeat match goal with
             | |- context [match assign ?a ?b ?c ?d with _ => _ end] => destruct (assign a b c d); [|discriminate]; cbn [fst snd]
             | |- context [match assign_opt ?a ?b ?c ?d with _ => _ end] => destruct (assign_opt a b c d); [|discriminate]; cbn [fst snd]
             | |- context [if ?b then _ else _] => destruct b; cbn [fst snd] end; intros X; injection X as <- _; repeat split. }
  destruct K as [K1 [K2 [K3 [K4 [K5 [K6 [K7 K8]]]]]]]. cbn [is_obj ic_N ic_O] in IN.
  repeat (split; [assumption|]). split; [destruct i; congruence|]. split; [reflexivity|].
  eexists. split; [exact E0|exact EC].
Qed.
