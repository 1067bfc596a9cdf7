(** C113: equations and initial-condition objects can be kept and used again in any order.
    C114: whose verbosity counts. *)
From Coq Require Import Reals List String ZArith Lra Lia Bool.
From Verif Require Import Base Model.Equations Model.Background Model.Float Model.Solution Model.InitCond
  Model.State Model.ApproxPower Model.Calibrate Model.BigBang Model.Shooting Model.Solver Model.Session
  Spec.SolutionSpec Spec.SessionSpec Proofs.FloatLemmas Proofs.DictLemmas Proofs.SolLemmas Proofs.PostProc Proofs.SessionPf Properties.InitProps.
Import ListNotations.
Open Scope R_scope.
Open Scope string_scope.

Lemma fresh_run F euler z3 S fmt ivp find q v k t eta xe ikw v' args kw :
  run F euler z3 S fmt ivp find empty_heap (fresh_session q v k t eta xe ikw v' args kw) =
  match construct F q k t eta xe ikw with
  | Raise x => [OEqs 0; OIC (Raise x); OBad]
  | Ok c => let w := if shooting k then v' else v in
            [OEqs 0; OIC (Ok 0%nat); OSol (solve_kw F euler z3 S fmt ivp find w c args kw) (solve_warnings F euler z3 S fmt ivp find w c args kw)]
  end.
Proof.
  unfold fresh_session. cbn [run step h_eqs h_ics empty_heap app List.length nth_error eq_q]. destruct (construct F q k t eta xe ikw) as [c|x]; cbn [h_eqs h_ics app List.length nth_error].
  - destruct (shooting k); cbn [set_nth h_eqs h_ics sl_eq sl_ic nth_error eq_verbose]; reflexivity.
  - reflexivity.
Qed.
Lemma In_firstn {A} (l : list A) n m x : nth_error l m = Some x -> (m < n)%nat -> In x (firstn n l).
Proof.
  revert n m. induction l as [|a t IH]; intros n m H L; [destruct m; discriminate|]. destruct n; [lia|]. cbn [firstn].
  destruct m; [injection H as ->; left; reflexivity|right; apply (IH n m H); lia].
Qed.

(** Whatever else happened in the session (other objects built on the same equations, earlier runs of this
    object with any keywords, failed runs, verbosity requests), solving an initial-conditions object gives
    the solution, or the exception, that a fresh session with the same request gives *)
Theorem C113_reuse : forall F euler z3 S fmt ivp find ops l m n q v0 e k t eta xe ikw v i args kw r ws v1 v2,
  let trace := combine ops (run F euler z3 S fmt ivp find empty_heap ops) in (l < n)%nat -> (m < n)%nat ->
  nth_error trace l = Some (NewEqs q v0, OEqs e) -> nth_error trace m = Some (NewIC e k t eta xe ikw v, OIC (Ok i)) ->
  nth_error trace n = Some (Solve i args kw, OSol r ws) ->
  exists ws', nth_error (run F euler z3 S fmt ivp find empty_heap (fresh_session q v1 k t eta xe ikw v2 args kw)) 2 = Some (OSol r ws').
Proof.
  intros F euler z3 S fmt ivp find ops l m n q v0 e k t eta xe ikw v i args kw r ws v1 v2 trace Ln Mn El Em En.
  destruct (run_at F euler z3 S fmt ivp find ops n _ _ En) as [ER EF]. fold trace in EF.
  pose proof (inv_run F euler z3 S fmt ivp find (firstn n ops)) as (I1 & I2 & I3). rewrite <- EF in I1, I2, I3.
  destruct (I1 q v0 e) as (E & E1 & E2); [exact (In_firstn _ _ _ _ El Ln)|].
  destruct (I3 e k t eta xe ikw v i) as (s & E' & c & A1 & A2 & A3 & A4 & A5); [exact (In_firstn _ _ _ _ Em Mn)|].
  rewrite A3 in E1. injection E1 as ->. rewrite E2 in A4. cbn [step] in ER. rewrite A1, A2, A3 in ER. cbv zeta in ER. cbn [snd] in ER. injection ER as -> ->.
  rewrite fresh_run, A4. cbv zeta. cbn [nth_error]. eexists. f_equal. f_equal.
  rewrite (solve_kw_sim F euler z3 S fmt ivp find (if shooting k then v2 else v1) c c args kw (sim_refl c)).
  rewrite (solve_kw_sim F euler z3 S fmt ivp find (eq_verbose E) (sl_ic s) (sl_ic s) args kw (sim_refl _)).
  exact (solve_kw_sim F euler z3 S fmt ivp find true c (sl_ic s) args kw A5).
Qed.
(** so asking twice gives the same answer twice *)
Theorem C113_twice : forall F euler z3 S fmt ivp find ops l m n n' q v0 e k t eta xe ikw v i args kw r ws r' ws',
  let trace := combine ops (run F euler z3 S fmt ivp find empty_heap ops) in (l < n)%nat -> (m < n)%nat -> (l < n')%nat -> (m < n')%nat ->
  nth_error trace l = Some (NewEqs q v0, OEqs e) -> nth_error trace m = Some (NewIC e k t eta xe ikw v, OIC (Ok i)) ->
  nth_error trace n = Some (Solve i args kw, OSol r ws) -> nth_error trace n' = Some (Solve i args kw, OSol r' ws') -> r = r'.
Proof.
  intros F euler z3 S fmt ivp find ops l m n n' q v0 e k t eta xe ikw v i args kw r ws r' ws' trace L1 M1 L2 M2 El Em E1 E2.
  destruct (C113_reuse F euler z3 S fmt ivp find ops l m n q v0 e k t eta xe ikw v i args kw r ws true true L1 M1 El Em E1) as [w A].
  destruct (C113_reuse F euler z3 S fmt ivp find ops l m n' q v0 e k t eta xe ikw v i args kw r' ws' true true L2 M2 El Em E2) as [w' B].
  rewrite A in B. injection B as -> _. reflexivity.
Qed.
(** a constructor succeeds or fails in a session as it does on fresh equations *)
Theorem C113_construct : forall F euler z3 S fmt ivp find ops l m q v0 e k t eta xe ikw v r v1 v2 args kw,
  let trace := combine ops (run F euler z3 S fmt ivp find empty_heap ops) in (l < m)%nat ->
  nth_error trace l = Some (NewEqs q v0, OEqs e) -> nth_error trace m = Some (NewIC e k t eta xe ikw v, OIC r) ->
  exists r', nth_error (run F euler z3 S fmt ivp find empty_heap (fresh_session q v1 k t eta xe ikw v2 args kw)) 1 = Some (OIC r') /\
    (forall x, r = Raise x <-> r' = Raise x).
Proof.
  intros F euler z3 S fmt ivp find ops l m q v0 e k t eta xe ikw v r v1 v2 args kw trace Lm El Em.
  destruct (run_at F euler z3 S fmt ivp find ops m _ _ Em) as [ER EF]. fold trace in EF.
  pose proof (inv_run F euler z3 S fmt ivp find (firstn m ops)) as (I1 & _ & _). rewrite <- EF in I1.
  destruct (I1 q v0 e) as (E & E1 & E2); [exact (In_firstn _ _ _ _ El Lm)|]. cbn [step] in ER. rewrite E1, E2 in ER. rewrite fresh_run.
  destruct (construct F q k t eta xe ikw) as [c|x]; cbn [snd] in ER; injection ER as ->; cbn [nth_error]; eexists; split; try reflexivity; intros y; split; intros H; congruence.
Qed.
(** the object keeps its class, its targets and its options throughout, and a solve() that succeeds leaves
    in it the attributes of the initial conditions it integrated (those a fresh object computes for the
    same request), whatever was left there by earlier calls *)
Theorem C113_targets_kept : forall F euler z3 S fmt ivp find ops l m n q v0 e k t eta xe ikw v i,
  let trace := combine ops (run F euler z3 S fmt ivp find empty_heap ops) in (l < n)%nat -> (m < n)%nat ->
  nth_error trace l = Some (NewEqs q v0, OEqs e) -> nth_error trace m = Some (NewIC e k t eta xe ikw v, OIC (Ok i)) -> (n <= List.length ops)%nat ->
  exists s, nth_error (h_ics (objects_after F euler z3 S fmt ivp find (firstn n ops))) i = Some s /\ honours q k t eta xe (sl_ic s) /\
    (shooting k = false -> exists c, construct F q k t eta xe ikw = Ok c /\ let a := ic_part (sl_ic s) in let b := ic_part c in
       ic_input a = ic_input b /\ ic_V a = ic_V b /\ ic_N a = ic_N b /\ ic_O a = ic_O b /\ ic_aH a = ic_aH b /\ ic_H a = ic_H b).
Proof.
  intros F euler z3 S fmt ivp find ops l m n q v0 e k t eta xe ikw v i trace Ln Mn El Em Nn.
  assert (EF : firstn n trace = combine (firstn n ops) (run F euler z3 S fmt ivp find empty_heap (firstn n ops))).
  { unfold trace. rewrite <- (firstn_skipn n ops) at 1 2. rewrite run_app.
    assert (L1 : List.length (firstn n ops) = n) by (rewrite firstn_length; lia).
    assert (C : forall A B (a a' : list A) (b b' : list B), List.length a = List.length b -> firstn (List.length a) (combine (a ++ a') (b ++ b')) = combine a b).
    { clear. intros A B a. induction a as [|x a IH]; intros a' [|y b] b' H; try discriminate; [reflexivity|]. cbn. f_equal. apply IH. injection H as H. exact H. }
    rewrite <- L1 at 1. apply C. symmetry. apply run_length. }
  pose proof (inv_run F euler z3 S fmt ivp find (firstn n ops)) as (I1 & I2 & I3). rewrite <- EF in I1, I2, I3.
  destruct (I1 q v0 e) as (E & E1 & E2); [exact (In_firstn _ _ _ _ El Ln)|].
  destruct (I3 e k t eta xe ikw v i) as (s & E' & c & A1 & A2 & A3 & A4 & A5); [exact (In_firstn _ _ _ _ Em Mn)|].
  rewrite A3 in E1. injection E1 as ->. rewrite E2 in A4. exists s. split; [exact A1|]. split; [exact (honours_sim _ _ _ _ _ _ _ A5 (construct_honours _ _ _ _ _ _ _ _ A4))|].
  intros NS. exists c. split; [exact A4|]. cbv zeta. pose proof (construct_honours _ _ _ _ _ _ _ _ A4) as (_ & _ & _ & _ & HK).
  destruct k, c; try contradiction; try discriminate; cbn [sim] in A5; destruct (sl_ic s); try contradiction; cbn [ic_part].
  - subst. repeat split.
  - unfold strip, core in A5. injection A5 as _ _ _ _ -> _ -> -> -> -> ->. repeat split.
Qed.
Theorem C113_attributes : forall F euler z3 S fmt ivp find ops l m n q v0 e k t eta xe ikw v i args kw r ws,
  let trace := combine ops (run F euler z3 S fmt ivp find empty_heap ops) in (l < n)%nat -> (m < n)%nat ->
  nth_error trace l = Some (NewEqs q v0, OEqs e) -> nth_error trace m = Some (NewIC e k t eta xe ikw v, OIC (Ok i)) ->
  nth_error trace n = Some (Solve i args kw, OSol (Ok r) ws) ->
  exists c ic y0 s, construct F q k t eta xe ikw = Ok c /\
    ic_call F euler z3 S fmt ivp find true c (ivp_kwargs (snd (split_kw kw))) (repeat (Fin 0) (List.length (ie_idx q))) = Ok (ic, y0) /\
    nth_error (h_ics (objects_after F euler z3 S fmt ivp find (firstn (Datatypes.S n) ops))) i = Some s /\ ic_part (sl_ic s) = ic.
Proof.
  intros F euler z3 S fmt ivp find ops l m n q v0 e k t eta xe ikw v i args kw r ws trace Ln Mn El Em En.
  destruct (run_at F euler z3 S fmt ivp find ops n _ _ En) as [ER EF]. fold trace in EF.
  assert (OPS : nth_error ops n = Some (Solve i args kw)).
  { revert En. unfold trace. clear. generalize (run F euler z3 S fmt ivp find empty_heap ops). revert n. induction ops as [|o t IH]; intros [|n] [|x xs] H; cbn in *; try discriminate; [injection H as -> _; reflexivity|exact (IH _ _ H)]. }
  pose proof (inv_run F euler z3 S fmt ivp find (firstn n ops)) as (I1 & I2 & I3). rewrite <- EF in I1, I2, I3.
  destruct (I1 q v0 e) as (E & E1 & E2); [exact (In_firstn _ _ _ _ El Ln)|].
  destruct (I3 e k t eta xe ikw v i) as (s & E' & c & A1 & A2 & A3 & A4 & A5); [exact (In_firstn _ _ _ _ Em Mn)|].
  rewrite A3 in E1. injection E1 as ->. rewrite E2 in A4.
  assert (FS : firstn (Datatypes.S n) ops = (firstn n ops ++ [Solve i args kw])%list).
  { clear - OPS. revert n OPS. induction ops as [|o t IH]; intros [|n] H; cbn in *; try discriminate; [injection H as ->; reflexivity|]. f_equal. apply IH, H. }
  rewrite FS. unfold objects_after. rewrite fold_left_app. fold (heap_after F euler z3 S fmt ivp find empty_heap (firstn n ops)). cbn [fold_left].
  cbn [step] in ER |- *. rewrite A1, A2, A3 in ER |- *. cbv zeta in ER |- *. cbn [snd fst h_ics] in ER |- *. injection ER as ER _.
  rewrite nth_error_set, Nat.eqb_refl, A1. unfold solve_kw in ER. unfold solve_after. destruct (existsb _ reserved); [discriminate|]. cbv zeta in ER.
  pose proof (construct_honours _ _ _ _ _ _ _ _ A4) as HC. pose proof (honours_sim _ _ _ _ _ _ _ A5 HC) as HS.
  assert (Q : any_eqs (sl_ic s) = q) by (destruct HS as (X & _); destruct (sl_ic s); exact X). rewrite Q in ER.
  destruct (ic_call F euler z3 S fmt ivp find (eq_verbose E) (sl_ic s) (ivp_kwargs (snd (split_kw kw))) (repeat (Fin 0) (List.length (ie_idx q)))) as [[ic y0]|] eqn:EC; cbn [bind] in ER; [|discriminate].
  exists c, ic, y0. eexists. split; [exact A4|]. split.
  - rewrite (ic_call_sim_eq F euler z3 S fmt ivp find true c (sl_ic s) _ _ A5). rewrite <- EC. symmetry. apply ic_call_sim_eq. apply sim_refl.
  - split; [reflexivity|]. cbn [sl_ic]. symmetry. exact (ic_after_part F euler z3 S fmt ivp find _ _ _ _ _ EC).
Qed.
(** trial runs of a shooting object show the warnings of a verbose run if both the object and the equations
    are verbose, none otherwise *)
Theorem C114_trials : forall fmt own v q ev r s ws, solve fmt q true ev r = Ok (s, ws) ->
  trial_warnings fmt own v q ev r = if (own && v)%bool then ws else [].
Proof.
  intros fmt own v q ev r s ws E. unfold trial_warnings. rewrite solve_quiet, E. cbn [quiet fst snd]. destruct own, v; reflexivity.
Qed.
(** the warnings shown are those the run deserves (what a verbose fresh session shows) if the verbosity in
    force is on, none otherwise; the one in force was set by the equations' constructor or by the last
    shooting object built on them *)
Theorem C114_warnings : forall F euler z3 S fmt ivp find ops l m n q v0 e k t eta xe ikw v i args kw r ws,
  let trace := combine ops (run F euler z3 S fmt ivp find empty_heap ops) in (l < n)%nat -> (m < n)%nat ->
  nth_error trace l = Some (NewEqs q v0, OEqs e) -> nth_error trace m = Some (NewIC e k t eta xe ikw v, OIC (Ok i)) ->
  nth_error trace n = Some (Solve i args kw, OSol r ws) ->
  exists deserved, nth_error (run F euler z3 S fmt ivp find empty_heap (fresh_session q true k t eta xe ikw true args kw)) 2 = Some (OSol r deserved) /\
    ws = if verbosity e (firstn n trace) false then deserved else [].
Proof.
  intros F euler z3 S fmt ivp find ops l m n q v0 e k t eta xe ikw v i args kw r ws trace Ln Mn El Em En.
  destruct (C113_reuse F euler z3 S fmt ivp find ops l m n q v0 e k t eta xe ikw v i args kw r ws true true Ln Mn El Em En) as [d D]. exists d. split; [exact D|].
  destruct (run_at F euler z3 S fmt ivp find ops n _ _ En) as [ER EF]. fold trace in EF.
  pose proof (inv_run F euler z3 S fmt ivp find (firstn n ops)) as (I1 & I2 & I3). rewrite <- EF in I1, I2, I3.
  destruct (I1 q v0 e) as (E & E1 & E2); [exact (In_firstn _ _ _ _ El Ln)|].
  destruct (I3 e k t eta xe ikw v i) as (s & E' & c & A1 & A2 & A3 & A4 & A5); [exact (In_firstn _ _ _ _ Em Mn)|].
  rewrite A3 in E1. injection E1 as ->. rewrite E2 in A4. cbn [step] in ER. rewrite A1, A2, A3 in ER. cbv zeta in ER. cbn [snd] in ER. injection ER as _ ->.
  rewrite fresh_run, A4 in D. cbv zeta in D. cbn [nth_error] in D. injection D as _ <-. rewrite <- (I2 e E A3).
  rewrite (solve_warnings_sim F euler z3 S fmt ivp find (eq_verbose E) (sl_ic s) (sl_ic s) args kw (sim_refl _)). destruct (eq_verbose E); [|reflexivity].
  symmetry. destruct (shooting k); exact (solve_warnings_sim F euler z3 S fmt ivp find true c (sl_ic s) args kw A5).
Qed.
(** without shooting objects on these equations the request made when building them counts *)
Theorem C114_verbosity_partial : forall F euler z3 S fmt ivp find ops l n q v0 e,
  let trace := combine ops (run F euler z3 S fmt ivp find empty_heap ops) in (l < n)%nat ->
  nth_error trace l = Some (NewEqs q v0, OEqs e) -> no_shooting_on e (firstn n ops) -> verbosity e (firstn n trace) false = v0.
Proof.
  intros F euler z3 S fmt ivp find ops l n q v0 e trace Ln El NS.
  assert (U : forall l' q' v', nth_error trace l' = Some (NewEqs q' v', OEqs e) -> l' = l).
  { assert (G : forall a b qa va qb vb, (a < b)%nat -> nth_error trace a = Some (NewEqs qa va, OEqs e) -> nth_error trace b = Some (NewEqs qb vb, OEqs e) -> False).
    { intros a b qa va qb vb L A B. destruct (run_at F euler z3 S fmt ivp find ops b _ _ B) as [ER EF]. fold trace in EF.
      pose proof (inv_run F euler z3 S fmt ivp find (firstn b ops)) as (I1 & _ & _). rewrite <- EF in I1.
      destruct (I1 qa va e) as (E & E1 & _); [exact (In_firstn _ _ _ _ A L)|]. cbn [step snd] in ER. injection ER as ER.
      pose proof (lt_neq_b _ _ _ _ E1) as X. rewrite ER, Nat.eqb_refl in X. discriminate. }
    intros l' q' v' H. destruct (Nat.lt_trichotomy l' l) as [L|[L|L]]; [exfalso; exact (G _ _ _ _ _ _ L H El)|exact L|exfalso; exact (G _ _ _ _ _ _ L El H)]. }
  assert (OPS : forall j x y, nth_error (combine ops (run F euler z3 S fmt ivp find empty_heap ops)) j = Some (x, y) -> nth_error ops j = Some x).
  { clear. generalize (run F euler z3 S fmt ivp find empty_heap ops). induction ops as [|o t IH]; intros [|r rs] [|j] x y H; cbn in *; try discriminate; [injection H as -> _; reflexivity|exact (IH _ _ _ _ H)]. }
  assert (W : forall tr a, (forall j q' v', nth_error tr j = Some (NewEqs q' v', OEqs e) -> v' = v0 /\ True) ->
     (forall j k t eta xe kw w i, nth_error tr j = Some (NewIC e k t eta xe kw w, OIC (Ok i)) -> shooting k = false) -> (exists j q', nth_error tr j = Some (NewEqs q' v0, OEqs e)) \/ a = v0 -> verbosity e tr a = v0).
  { induction tr as [|[o x] tr IH]; intros a H1 H2 H3.
    - destruct H3 as [(j & q' & H)|H]; [destruct j; discriminate|exact H].
    - assert (N1 : forall j q' v', nth_error tr j = Some (NewEqs q' v', OEqs e) -> v' = v0 /\ True) by (intros j q' v' H; exact (H1 (Datatypes.S j) q' v' H)).
      assert (N2 : forall j k t eta xe kw w i, nth_error tr j = Some (NewIC e k t eta xe kw w, OIC (Ok i)) -> shooting k = false) by (intros j k t eta xe kw w i H; exact (H2 (Datatypes.S j) _ _ _ _ _ _ _ H)).
      assert (STEP : forall a', (o, x) <> (NewEqs q v0, OEqs e) \/ a' = v0 -> (a = v0 -> a' = v0) -> ((forall q', (o, x) <> (NewEqs q' v0, OEqs e)) \/ a' = v0) -> verbosity e tr a' = v0).
      { intros a' _ K1 K2. apply IH; [exact N1|exact N2|]. destruct H3 as [(j & q' & H)|H]; [|right; exact (K1 H)].
        destruct j as [|j]; [|left; exists j, q'; exact H]. cbn [nth_error] in H. injection H as -> ->. right. destruct K2 as [K2|K2]; [exfalso; exact (K2 q' eq_refl)|exact K2]. }
      cbn [verbosity]. destruct o as [q' w|e' k t eta xe kw w|i args kw], x as [e''|[i'|xx]|r ws|]; try (apply STEP; [left; discriminate|tauto|left; intros; discriminate]).
      + destruct (Nat.eqb e'' e) eqn:B.
        * apply Nat.eqb_eq in B. subst e''. destruct (H1 0%nat q' w eq_refl) as [-> _]. apply STEP; auto.
        * apply STEP; [left; intros H; injection H as _ _ ->; rewrite Nat.eqb_refl in B; discriminate|tauto|left; intros q'' H; injection H as _ _ ->; rewrite Nat.eqb_refl in B; discriminate].
      + destruct (Nat.eqb e' e) eqn:B; cbn [andb].
        * apply Nat.eqb_eq in B. subst e'. rewrite (H2 0%nat _ _ _ _ _ _ _ eq_refl). apply STEP; [left; discriminate|tauto|left; intros; discriminate].
        * apply STEP; [left; discriminate|tauto|left; intros; discriminate]. }
  assert (FN : forall A (t : list A) n j x, nth_error (firstn n t) j = Some x -> nth_error t j = Some x).
  { intros A t. induction t as [|a t IH]; intros [|n'] [|j] x H; cbn in *; try discriminate; [exact H|exact (IH _ _ _ H)]. }
  apply W.
  - intros j q' v' H. apply FN in H. pose proof (U _ _ _ H) as ->. rewrite El in H. injection H as _ <-. split; [reflexivity|exact I].
  - intros j k t eta xe kw w i H. assert (LJ : (j < n)%nat). { pose proof (proj1 (nth_error_Some (firstn n trace) j)) as X. rewrite H in X. specialize (X ltac:(discriminate)). rewrite firstn_length in X. lia. }
    apply FN in H. apply OPS in H. apply (NS k t eta xe kw w). exact (In_firstn _ _ _ _ H LJ).
  - left. exists l, q. assert (X : forall A (t : list A) n j x, (j < n)%nat -> nth_error t j = Some x -> nth_error (firstn n t) j = Some x).
    { clear. intros A t. induction t as [|a t IH]; intros [|n'] [|j] x L H; cbn in *; try discriminate; try lia; [exact H|apply IH; [lia|exact H]]. }
    apply X; assumption.
Qed.

(** ** a concrete session, and the request that is not honoured *)
Definition ex_raw : raw_sol := mkraw [0; 5] [[0; -1; 0]; [0; 1; 5]] [] [].
Definition ex_ivp : settings -> integrator := fun _ _ _ _ _ _ => (ex_raw, false).
Definition ex_q : ieqs := IT 0 Uex false.
Definition ex_start : op := NewIC 0 (KStart 0) (Some 0) None 100 (mkkw (Some 0) None) false.
Definition ex_shoot : op := NewIC 0 (KNt 60 [1; 2]) (Some 0) None 100 (mkkw (Some 0) None) false.
Lemma ex_adm : forall p, 0 < pV Uex p / 2 * exp (2 * 0) - 0.
Proof. intros p. cbn [pV Uex]. rewrite Rmult_0_r, exp_0. pose proof (pow2_ge_0 p). lra. Qed.
Lemma ex_solved F euler z3 S fmt find : exists c s b, is_init ex_q 0 (Some 0) None 100 (mkkw (Some 0) None) = Ok c /\
  forall v, solve_kw F euler z3 S fmt ex_ivp find v (AStart c) [] [] = Ok (s, b) /\ solve_warnings F euler z3 S fmt ex_ivp find v (AStart c) [] [] = if v then [InflationEndWarning true] else [].
Proof.
  eexists. assert (IV : ivp_ok (List.length (e_idx (T_eqs 0 Uex false))) 0 ex_raw).
  { repeat split; try discriminate. intros j te ye H. destruct j; discriminate. }
  destruct (solve_ok_full fmt (T_eqs 0 Uex false) true [] ex_raw) as (s & ES & _); [left; repeat eexists|constructor|exact IV|].
  exists s, false. split; [exact (is_from_N ex_q 0 (Some 0) None 100 0 (ex_adm 0))|].
  assert (SV : forall v, solve fmt (T_eqs 0 Uex false) v [] ex_raw = Ok (s, if v then [InflationEndWarning true] else [])).
  { intros v. rewrite solve_quiet, ES. cbn [quiet fst snd]. do 2 f_equal. destruct v; [|reflexivity]. unfold recorded, end_record, recorded. cbn [ex_raw record_of combine r_t r_y map].
    rewrite (fle_true 0 (e_inflating (T_eqs 0 Uex false) 0 [0; -1; 0])); [reflexivity|]. cbn. unfold T_inflating. cbn. lra. }
  set (ic := is_obj ex_q 0 (Some 0) None 100 (InN 0) (Fin 0) _ _ _).
  assert (CALL : exists ic' y0, ic_x_ini ic' = Some (Some (Fin 0)) /\ ic_x_end ic' = 100 /\ is_call ic (repeat (Fin 0) 3) = Ok (ic', map Fin y0)).
  { destruct (is_call_spec ex_q 0 (Some 0) None 100 (InN 0) (Fin 0) (Fin (- ie_K ex_q / (pV (ie_U ex_q) 0 / 2 * exp (2 * 0) - ie_K ex_q))) (Fin (sqrt (pV (ie_U ex_q) 0 / 2 * exp (2 * 0) - ie_K ex_q))) (Fin (sqrt (pV (ie_U ex_q) 0 / 2 - ie_K ex_q * exp (-2 * 0)))) eq_refl) as [_ B].
    destruct B as [y [_ C]]; [intros [D _]; discriminate|]. specialize (C (repeat (Fin 0) 3) eq_refl). fold ic in C.
    assert (Y : Ok [Fin 0; fneg (fsqrt (Fin (1 + 0^2))); Fin 0] = Ok y) by exact (f_equal state_of C).
    eexists _, [0; - sqrt (1 + 0^2); 0]. split; [|split; [|rewrite C; f_equal; f_equal; rewrite fsqrt_fin in Y by lra; cbn [fneg] in Y; cbn [map]; congruence]]; reflexivity. }
  destruct CALL as (ic' & y0 & X1 & X2 & CALL).
  assert (AR : all_R (map Fin y0) = Ok y0) by (clear; induction y0 as [|a t IH]; [reflexivity|cbn [map all_R]; rewrite IH; reflexivity]).
  intros v. unfold solve_kw, solve_warnings, ic_call. cbn [existsb reserved dict_get orb any_eqs]. cbv zeta.
  change (List.length (ie_idx (ic_eqs ic))) with 3%nat. rewrite CALL. cbn [bind fst snd]. change (ic_eqs ic) with ex_q. cbn [eqs_of ex_q bind]. rewrite X1. cbn [attr_of bind]. rewrite AR. cbn [bind].
  change (fst (split_kw [])) with (KwEvents []). cbv iota. unfold ex_ivp. cbn [fst snd]. rewrite SV. cbn [bind fst snd]. split; reflexivity.
Qed.
(** "equations built with verbose=True report their warnings" fails: building an ISIC_Nt (default
    verbose=False) on them silences every later run on them, here one of another object *)
Theorem C114_verbosity_refuted : forall F euler z3 S fmt find, exists r,
  run F euler z3 S fmt ex_ivp find empty_heap [NewEqs ex_q true; ex_start; Solve 0 [] []; ex_shoot; Solve 0 [] []] =
  [OEqs 0; OIC (Ok 0%nat); OSol (Ok r) [InflationEndWarning true]; OIC (Ok 1%nat); OSol (Ok r) []].
Proof.
  intros F euler z3 S fmt find. destruct (ex_solved F euler z3 S fmt find) as (c & s & b & EC & SV). exists (s, b).
  unfold ex_start, ex_shoot. cbn [run step h_eqs h_ics empty_heap app List.length nth_error eq_q construct]. rewrite EC. cbn [bind shooting h_eqs h_ics app List.length nth_error sl_eq sl_ic eq_verbose eq_q].
  destruct (SV true) as [-> ->]. unfold nt_init. change (last_of [1; 2]) with (@Ok R 2). cbn [bind]. change (mkkw (Some 0) None) with (kw_of (InN 0)). rewrite (is_from_N ex_q 2 (Some 0) None 100 0 (ex_adm 2)).
  cbn [bind set_nth h_eqs h_ics app List.length nth_error sl_eq sl_ic eq_verbose eq_q].
  rewrite (solve_kw_sim F euler z3 S fmt ex_ivp find false (solve_after F euler z3 S fmt ex_ivp find true (AStart c) []) (solve_after F euler z3 S fmt ex_ivp find true (AStart c) []) [] [] (sim_refl _)).
  rewrite <- (solve_kw_sim F euler z3 S fmt ex_ivp find true (AStart c) _ [] [] (solve_after_sim F euler z3 S fmt ex_ivp find true (AStart c) [])).
  rewrite (solve_warnings_sim F euler z3 S fmt ex_ivp find false (solve_after F euler z3 S fmt ex_ivp find true (AStart c) []) _ [] [] (sim_refl _)).
  destruct (SV true) as [-> _]. reflexivity.
Qed.
(** that session meets the hypotheses of C113: object 0 is solved twice (positions 2 and 4), with another
    object built in between *)
Theorem C113_nonvacuous : forall F euler z3 S fmt find, exists r w w', let ops := [NewEqs ex_q true; ex_start; Solve 0 [] []; ex_shoot; Solve 0 [] []] in
  let trace := combine ops (run F euler z3 S fmt ex_ivp find empty_heap ops) in
  nth_error trace 0%nat = Some (NewEqs ex_q true, OEqs 0) /\ nth_error trace 1%nat = Some (ex_start, OIC (Ok 0%nat)) /\
  nth_error trace 2%nat = Some (Solve 0 [] [], OSol (Ok r) w) /\ nth_error trace 4%nat = Some (Solve 0 [] [], OSol (Ok r) w') /\ w <> w'.
Proof.
  intros F euler z3 S fmt find. destruct (C114_verbosity_refuted F euler z3 S fmt find) as [r E]. exists r, [InflationEndWarning true], []. cbv zeta. rewrite E.
  repeat split. discriminate.
Qed.
