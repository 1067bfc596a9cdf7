(** C35 for ISIC_NsOk and C86: the objective of ISIC_NsOk. *)
From Coq Require Import Reals List String ZArith Lra Lia Bool Classical.
From Verif Require Import Base Model.Equations Model.Background Model.Float Model.Solution Model.InitCond
  Model.State Model.ApproxPower Model.Calibrate Model.BigBang Model.Shooting
  Spec.SolutionSpec Proofs.FloatLemmas Proofs.DictLemmas Proofs.SolLemmas Proofs.PostProc Properties.InitProps.
From Verif Require Import Properties.BigBangProps.
Import ListNotations.
Open Scope R_scope.
Open Scope string_scope.

(** what a shooting run leaves in the solution object *)
Lemma shoot_run : forall fmt_e ivp verbose q phi t eta xe kw until ic ic' y0 x0,
  is_other q = false -> is_init q phi t eta xe kw = Ok ic ->
  is_call ic (repeat (Fin 0) (List.length (ie_idx q))) = Ok (ic', map Fin y0) -> ic_x_ini ic' = Some (Some (Fin x0)) ->
  let r := fst (ivp q x0 xe y0 (shoot_events until)) in let step := snd (ivp q x0 xe y0 (shoot_events until)) in
  ivp_ok (List.length (ie_idx q)) 4 r ->
  exists s ws nt dN ue ce ee, solve fmt_e (eqs_ie q) verbose (shoot_events until) r = Ok (s, ws) /\
    run_solve fmt_e ivp verbose ic (shoot_events until) = Ok (s, step) /\
    get_F s "N_tot" = Ok nt /\ (nt = NaN \/ exists n, nt = Fin n) /\ get_DT s "_N_events" = Ok dN /\ get_A s "_N" = Ok (map Fin (efolds q r)) /\ efolds q r <> [] /\
    item "UntilN" dN = Ok ue /\ item "Collapse" dN = Ok ce /\ item "Inflation_dir-1_term1" dN = Ok ee /\
    (nonempty ue = true <-> recorded is_untilN (shoot_events until) r <> []) /\
    (nonempty ce = true <-> recorded is_collapse (shoot_events until) r <> []) /\
    ee = map (fun p => e_N (eqs_ie q) (fst p) (snd p)) (recorded (is_inflation (-1) true) (shoot_events until) r).
Proof.
  intros fmt_e ivp verbose q phi t eta xe kw until ic ic' y0 x0 Hq E EC EX r step IV.
  destruct (inflation_eqs_ie q Hq) as [IQ [EQ EI]].
  assert (ND : NoDup (map (event_name fmt_e) (shoot_events until))) by (cbn; nodup).
  assert (IV' : ivp_ok (List.length (e_idx (eqs_ie q))) (List.length (shoot_events until)) r) by (rewrite EI; exact IV).
  destruct (solve_ok_full fmt_e (eqs_ie q) verbose (shoot_events until) r IQ ND IV') as [s [ES [SO [dN [GN DN]]]]].
  unfold solved in SO. destruct SO as [_ [_ [_ [_ [_ [_ [_ [_ [S9 [_ [S11 _]]]]]]]]]]].
  destruct IV as [R0 [R1 [L1 [L2 L3]]]].
  destruct (r_t_events r) as [|t0 [|t1 [|t2 [|t3 [|]]]]] eqn:TE; try discriminate L1.
  destruct (r_y_events r) as [|z0 [|z1 [|z2 [|z3 [|]]]]] eqn:YE; try discriminate L2.
  pose proof (L3 1%nat _ _ eq_refl eq_refl) as M1. pose proof (L3 2%nat _ _ eq_refl eq_refl) as M2. pose proof (L3 3%nat _ _ eq_refl eq_refl) as M3.
  pose proof (DN 1%nat _ _ _ eq_refl eq_refl eq_refl) as G1. pose proof (DN 2%nat _ _ _ eq_refl eq_refl eq_refl) as G2. pose proof (DN 3%nat _ _ _ eq_refl eq_refl eq_refl) as G3.
  change (dict_get "Inflation_dir-1_term1" dN = Some (zipw (e_N (eqs_ie q)) t1 z1)) in G1. cbn [event_name] in G2, G3.
  assert (RU : recorded is_untilN (shoot_events until) r = combine t2 z2) by (unfold recorded; rewrite TE, YE; reflexivity).
  assert (RC : recorded is_collapse (shoot_events until) r = combine t3 z3) by (unfold recorded; rewrite TE, YE; reflexivity).
  assert (RE : recorded (is_inflation (-1) true) (shoot_events until) r = combine t1 z1) by (unfold recorded; rewrite TE, YE; reflexivity).
  assert (NE : forall (a : list R) (b : list (list R)), List.length a = List.length b -> nonempty (zipw (e_N (eqs_ie q)) a b) = true <-> combine a b <> []).
  { intros [|a la] [|b lb]; cbn; intros HL; try discriminate; split; intros HX; try congruence; discriminate. }
  rewrite RU, RC, RE.
  eexists s, _, _, dN, _, _, _. split; [exact ES|]. split.
  { unfold run_solve.
    assert (EQI : ic_eqs ic = q /\ ic_x_end ic = xe). { apply is_init_obj in E. destruct E as [? [? [? [? [? [-> _]]]]]]. split; reflexivity. }
    destruct EQI as [-> ->]. rewrite EC. cbn [bind fst snd]. rewrite EQ. cbn [bind]. rewrite EX. cbn [attr_of bind]. rewrite all_R_map. cbn [bind].
    fold r. rewrite ES. cbn [bind fst snd]. reflexivity. }
  unfold get_F, get_DT, get_A, getattr, item. rewrite S9, GN, S11, G1, G2, G3. cbn [bind as_F as_DT as_A].
  fold (efolds q r). assert (NN : efolds q r <> []) by (apply zipw_nonnil; assumption).
  split; [reflexivity|]. split.
  { set (qq := eqs_ie q). set (ev := shoot_events until).
    assert (X : fst (fst (fst (N_end_of qq ev r))) = NaN \/ exists a, fst (fst (fst (N_end_of qq ev r))) = Fin a).
    { unfold N_end_of. destruct (end_record ev r) as [|[? ?] ?]; [left; reflexivity|right; eexists; reflexivity]. }
    assert (Y : fst (N_beg_of qq ev r) = NaN \/ exists a, fst (N_beg_of qq ev r) = Fin a).
    { unfold N_beg_of. destruct (recorded is_collapse ev r); [|left; reflexivity]. destruct (r_t r), (r_y r); try (left; reflexivity).
      destruct (_ || _)%bool; [right; eexists; reflexivity|]. destruct (recorded (is_inflation 1 false) ev r) as [|[? ?] ?]; [left; reflexivity|right; eexists; reflexivity]. }
    destruct X as [X|[a X]], Y as [Y|[b Y]]; rewrite X, Y; try (left; reflexivity). right. eexists. reflexivity. }
  do 2 (split; [reflexivity|]). split; [exact NN|]. do 3 (split; [reflexivity|]).
  split; [apply NE; assumption|]. split; [apply NE; assumption|].
  clear -M1. revert z1 M1. induction t1 as [|a t1 IH]; intros [|b z1] M; try discriminate; [reflexivity|]. cbn in *. rewrite IH by lia. reflexivity.
Qed.

(** ** C86 *)
Theorem C86_objective : forall F euler z3 S fmt_e ivp verbose q t eta xe input N_star OK0 h N0 phi,
  is_other q = false -> 0 < N_star -> 0 < N0 ->
  let f := phii2Nstar F euler z3 S fmt_e ivp verbose q t eta xe input N_star OK0 h N0 in
  (forall e, is_init q phi t eta xe (kw_of input) = Raise e -> f phi = Raise e) /\
  (forall ic ic' y0 x0, is_init q phi t eta xe (kw_of input) = Ok ic ->
     is_call ic (repeat (Fin 0) (List.length (ie_idx q))) = Ok (ic', map Fin y0) -> ic_x_ini ic' = Some (Some (Fin x0)) ->
     let r := fst (ivp q x0 xe y0 (shoot_events N0)) in
     let step := snd (ivp q x0 xe y0 (shoot_events N0)) in
     shoot_contract q N0 r ->
     exists s ws nt, solve fmt_e (eqs_ie q) verbose (shoot_events N0) r = Ok (s, ws) /\ get_F s "N_tot" = Ok nt /\
     let sufficient := exists n, nt = Fin n /\ N_star < n in
     let too_long := recorded is_untilN (shoot_events N0) r <> [] \/ N0 <= N_last q r in
     let failed := recorded is_collapse (shoot_events N0) r <> [] \/ (exists n, nt = Fin n /\ n <= N_star) \/ ended_at_start q N0 r in
     let cal := calibrate_scale_factor (consts_of F euler z3) S (aeqs_of q) (args_Omega OK0 h) s in
     (sufficient -> forall e, snd cal = Raise e -> f phi = Raise e) /\
     (sufficient -> forall w n, snd cal = Ok w -> get_F (fst cal) "N_star" = Ok (Fin n) -> f phi = Ok (Fin (n - N_star))) /\
     (~ sufficient  -> too_long -> exists v, f phi = Ok (Fin v) /\ 0 < v) /\
     (~ sufficient  -> ~ too_long -> failed -> f phi = Ok (Fin (- N_star))) /\
     (~ sufficient  -> ~ too_long -> ~ failed -> f phi = Raise (if step then StepSizeError else PrimpyError))).
Proof.
  intros F euler z3 S fmt_e ivp verbose q t eta xe input N_star OK0 h N0 phi Hq HT H0 f. split.
  { intros e E. unfold f, phii2Nstar. rewrite E. reflexivity. }
  intros ic ic' y0 x0 E EC EX r step [IV [UC EL]].
  destruct (shoot_run fmt_e ivp verbose q phi t eta xe (kw_of input) N0 ic ic' y0 x0 Hq E EC EX IV)
    as (s & ws & nt & dN & ue & ce & ee & ES & RS & GT & NTC & GN & GA & NN & GU & GC & GE & IU & IC & EE).
  fold r in ES, RS, GA, NN, IU, IC, EE. fold step in RS.
  exists s, ws, nt. split; [exact ES|]. split; [exact GT|]. cbv zeta.
  set (cal := calibrate_scale_factor _ _ _ _ _).
  assert (EF : f phi = if (isfinite nt && flt (Fin N_star) nt)%bool then
       (do _ <- snd cal; do v <- get_F (fst cal) "N_star"; Ok (fsub v (Fin N_star)))
     else if (nonempty ue || fle (Fin N0) (Fin (N_last q r)))%bool then Ok (Fin (N_last q r))
     else do n0 <- head_of (map Fin (efolds q r));
          do e <- (if (nonempty ce || fle nt (Fin N_star))%bool then Ok true else truth_eq ee n0);
          if e then do _ <- (if fle nt (Fin N_star) then Ok true else truth_eq ee n0); Ok (fsub (Fin 0) (Fin N_star))
          else if step then Raise StepSizeError else Raise PrimpyError).
  { unfold f, phii2Nstar. rewrite E. cbn [bind]. rewrite RS. cbn [bind fst snd]. rewrite GT. cbn [bind]. fold cal.
    destruct (isfinite nt && flt (Fin N_star) nt)%bool; [reflexivity|]. rewrite GN. cbn [bind]. rewrite GU. cbn [bind]. rewrite GA. cbn [bind].
    rewrite (last_of_map Fin (efolds q r) 0 NN). cbn [bind]. fold (N_last q r). destruct (_ || _)%bool; [reflexivity|]. rewrite GC, GE. reflexivity. }
  assert (B : (isfinite nt && flt (Fin N_star) nt)%bool = true <-> exists n, nt = Fin n /\ N_star < n).
  { destruct nt; cbn [isfinite andb]; split; try discriminate; try (intros [n [X _]]; discriminate).
    - intros X. apply flt_iff in X. eauto.
    - intros [n [X Y]]. injection X as ->. apply flt_iff. exact Y. }
  assert (TL : (nonempty ue || fle (Fin N0) (Fin (N_last q r)))%bool = true <-> (recorded is_untilN (shoot_events N0) r <> [] \/ N0 <= N_last q r)).
  { rewrite orb_true_iff, IU, fle_iff. reflexivity. }
  assert (LE : fle nt (Fin N_star) = true <-> exists n, nt = Fin n /\ n <= N_star).
  { destruct NTC as [->|[n' ->]]; split; try discriminate; try (intros [n [X _]]; discriminate).
    - intros X. apply fle_iff in X. eauto.
    - intros [n [X Y]]. injection X as ->. apply fle_iff. exact Y. }
  assert (TE : forall n0, hd_error (efolds q r) = Some n0 -> exists b, truth_eq ee (Fin n0) = Ok b /\ (b = true <-> ended_at_start q N0 r)).
  { intros n0 HN. unfold ended_at_start. rewrite EE. rewrite HN. destruct (recorded (is_inflation (-1) true) (shoot_events N0) r) as [|[x y] [|? ?]] eqn:RE; [| |cbn in EL; lia].
    - exists false. split; [reflexivity|]. split; [discriminate|]. intros [x [y [X _]]]. discriminate.
    - cbn [map truth_eq fst snd]. eexists. split; [reflexivity|]. rewrite feq_iff. split; [intros X; exists x, y; split; [reflexivity|congruence]|].
      intros [x' [y' [X Y]]]. injection X as -> ->. congruence. }
  destruct (efolds q r) as [|n0 nl] eqn:EFL; [congruence|]. destruct (TE n0 eq_refl) as [b [Tb Hb]].
  cbn [map head_of bind] in EF.
  repeat split.
  - intros SU e X. rewrite EF. apply B in SU. rewrite SU, X. reflexivity.
  - intros SU w n X Y. rewrite EF. apply B in SU. rewrite SU, X. cbn [bind]. rewrite Y. reflexivity.
  - intros SU En. exists (N_last q r). rewrite EF. destruct (_ && _)%bool; [exfalso; apply SU, B; reflexivity|]. pose proof En as En'. apply TL in En. rewrite En.
    split; [reflexivity|]. destruct En' as [X|X]; [rewrite (UC X); exact H0|lra].
  - intros SU NL FA. rewrite EF. destruct (_ && _)%bool; [exfalso; apply SU, B; reflexivity|].
    destruct (_ || _)%bool eqn:X; [exfalso; apply NL, TL; reflexivity|]. clear X.
    assert (G : (do e <- (if (nonempty ce || fle nt (Fin N_star))%bool then Ok true else truth_eq ee (Fin n0)); Ok e) = Ok true).
    { destruct (nonempty ce || fle nt (Fin N_star))%bool eqn:Y; [reflexivity|]. apply orb_false_iff in Y. destruct Y as [Y1 Y2].
      rewrite Tb. cbn [bind]. f_equal. apply Hb. destruct FA as [FA|[FA|FA]]; [apply IC in FA; congruence|apply LE in FA; congruence|exact FA]. }
    destruct (if (nonempty ce || fle nt (Fin N_star))%bool then Ok true else truth_eq ee (Fin n0)) as [e|]; [|discriminate]. cbn [bind] in G. injection G as ->. cbn [bind].
    rewrite Tb. destruct (fle nt (Fin N_star)); cbn [bind fsub]; do 2 f_equal; ring.
  - intros SU NL FA. rewrite EF. destruct (_ && _)%bool; [exfalso; apply SU, B; reflexivity|].
    destruct (_ || _)%bool eqn:X; [exfalso; apply NL, TL; reflexivity|]. clear X.
    destruct (nonempty ce || fle nt (Fin N_star))%bool eqn:Y.
    { exfalso. apply FA. apply orb_true_iff in Y. destruct Y as [Y|Y]; [left; apply IC; exact Y|right; left; apply LE; exact Y]. }
    rewrite Tb. cbn [bind]. destruct b; [exfalso; apply FA; right; right; apply Hb; reflexivity|]. destruct step; reflexivity.
Qed.

Lemma fsub_zero v a : fsub v (Fin a) = Fin 0 -> v = Fin a.
Proof. destruct v; cbn; try discriminate. intros X. injection X as X. f_equal. lra. Qed.

(** the root: the objective vanishes exactly when the run inflates for more than N_star e-folds and its
    calibration to Omega_K0, h yields the requested N_star *)
Theorem C86_zero : forall F euler z3 S fmt_e ivp verbose q t eta xe input N_star OK0 h N0 phi ic ic' y0 x0,
  is_other q = false -> 0 < N_star -> 0 < N0 -> is_init q phi t eta xe (kw_of input) = Ok ic ->
  is_call ic (repeat (Fin 0) (List.length (ie_idx q))) = Ok (ic', map Fin y0) -> ic_x_ini ic' = Some (Some (Fin x0)) ->
  let r := fst (ivp q x0 xe y0 (shoot_events N0)) in shoot_contract q N0 r ->
  (phii2Nstar F euler z3 S fmt_e ivp verbose q t eta xe input N_star OK0 h N0 phi = Ok (Fin 0) <->
   exists s ws n s' w, solve fmt_e (eqs_ie q) verbose (shoot_events N0) r = Ok (s, ws) /\ get_F s "N_tot" = Ok (Fin n) /\ N_star < n /\
     calibrate_scale_factor (consts_of F euler z3) S (aeqs_of q) (args_Omega OK0 h) s = (s', Ok w) /\ get_F s' "N_star" = Ok (Fin N_star)).
Proof.
  intros F euler z3 S fmt_e ivp verbose q t eta xe input N_star OK0 h N0 phi ic ic' y0 x0 Hq HT H0 E EC EX r SC.
  destruct (C86_objective F euler z3 S fmt_e ivp verbose q t eta xe input N_star OK0 h N0 phi Hq HT H0) as [_ O].
  destruct (O ic ic' y0 x0 E EC EX SC) as (s & ws & nt & ES & GT & A1 & A2 & A3 & A4 & A5). fold r in ES, A3, A4, A5. clear O.
  set (cal := calibrate_scale_factor _ _ _ _ s) in *.
  split.
  - intros Z. destruct (classic (exists n, nt = Fin n /\ N_star < n)) as [SU|SU].
    + destruct (snd cal) as [w|e] eqn:EW; [|rewrite (A1 SU e eq_refl) in Z; discriminate].
      destruct SU as (n & -> & Hn). exists s, ws, n, (fst cal), w. repeat split; try assumption.
      * rewrite <- EW. apply surjective_pairing.
      * revert Z. destruct (shoot_run fmt_e ivp verbose q phi t eta xe (kw_of input) N0 ic ic' y0 x0 Hq E EC EX (proj1 SC)) as (s2 & ? & ? & ? & ? & ? & ? & ES2 & RS & _).
        fold r in ES2. rewrite ES in ES2. injection ES2 as <- <-. unfold phii2Nstar. rewrite E. cbn [bind]. rewrite RS. cbn [bind fst]. rewrite GT. cbn [bind isfinite andb].
        destruct (flt (Fin N_star) (Fin n)) eqn:FL; [|apply flt_iff in Hn; congruence]. fold cal. rewrite EW. cbn [bind].
        destruct (get_F (fst cal) "N_star") as [v|]; [|discriminate]. cbn [bind]. intros X. assert (X' : fsub v (Fin N_star) = Fin 0) by congruence.
        rewrite (fsub_zero _ _ X'). reflexivity.
    + exfalso. destruct (classic (recorded is_untilN (shoot_events N0) r <> [] \/ N0 <= N_last q r)) as [En|En].
      * destruct (A3 SU En) as (v & Ev & Pv). rewrite Ev in Z. injection Z as Z. lra.
      * destruct (classic (recorded is_collapse (shoot_events N0) r <> [] \/ (exists n, nt = Fin n /\ n <= N_star) \/ ended_at_start q N0 r)) as [Fa|Fa].
        -- rewrite (A4 SU En Fa) in Z. injection Z as Z. lra.
        -- rewrite (A5 SU En Fa) in Z. discriminate.
  - intros (s1 & ws1 & n & s' & w & ES1 & GT1 & Hn & EC1 & GN). rewrite ES in ES1. injection ES1 as <- <-. rewrite GT in GT1. injection GT1 as ->.
    fold cal in EC1. rewrite EC1 in A2. cbn [fst snd] in A2. rewrite (A2 (ex_intro _ n (conj eq_refl Hn)) w N_star eq_refl GN). do 2 f_equal. ring.
Qed.

(** ** C35 for ISIC_NsOk *)
Theorem C35_shooting_N_star : forall F euler z3 S fmt_e ivp find verbose q bracket t eta xe i N_star OK0 h o y0 ic' y root,
  ns_init F q N_star OK0 h bracket t eta xe (kw_of i) = Ok o ->
  ns_call F euler z3 S fmt_e ivp find verbose o y0 = Ok (ic', y, root) ->
  ic_phi ic' = root /\ ic_input ic' = i /\ ic_t ic' = t /\ ic_eta ic' = eta /\ ic_x_end ic' = xe /\ ic_eqs ic' = q /\
  match i with InN n => ic_N ic' = Fin n | InO o => ic_O ic' = Fin o end /\
  (exists a0, get_a0 F h OK0 "planck" = Ok a0 /\
     find q (phii2Nstar F euler z3 S fmt_e ivp verbose q t eta xe i N_star OK0 h (ln a0)) bracket = Ok root) /\
  exists ic0, is_init q root t eta xe (kw_of i) = Ok ic0 /\ is_call ic0 y0 = Ok (ic', y).
Proof.
  intros F euler z3 S fmt_e ivp find verbose q bracket t eta xe i N_star OK0 h o y0 ic' y root E C.
  unfold ns_init in E. destruct (Req_EM_T OK0 0); [discriminate|]. destruct (last_of bracket) as [b|] eqn:EB; [|discriminate]. cbn [bind] in E.
  destruct (is_init q b t eta xe (kw_of i)) as [ic|] eqn:EI; [|discriminate]. cbn [bind] in E.
  destruct (get_a0 F h OK0 "planck") as [a0|] eqn:EA; [|discriminate]. cbn [bind] in E. injection E as <-.
  assert (NI : nt_init q bracket t eta xe (kw_of i) = Ok ic) by (unfold nt_init; rewrite EB; exact EI).
  unfold ns_call in C. cbn [ns_ic ns_N_star ns_OK0 ns_h ns_bracket ns_N0] in C.
  assert (FL : ic_eqs ic = q /\ ic_t ic = t /\ ic_eta ic = eta /\ ic_x_end ic = xe /\ ic_input ic = i).
  { apply is_init_obj in EI. destruct EI as [j [n' [o' [aH' [H' [-> EJ]]]]]]. cbn. repeat split. destruct i, j; cbn in EJ; congruence. }
  destruct FL as (F1 & F2 & F3 & F4 & F5). rewrite F1, F2, F3, F4, F5 in C.
  destruct (find q _ bracket) as [root'|] eqn:FR; [|discriminate]. cbn [bind] in C.
  assert (root' = root).
  { unfold shoot_finish in C. destruct (is_init _ root' _ _ _ _); [|discriminate]. cbn [bind] in C. destruct (is_call _ y0); [|discriminate]. cbn [bind] in C. congruence. }
  subst root'.
  (* the rest is what ISIC_Nt does with a root finder returning the same root *)
  destruct (C35_shooting fmt_e ivp (fun _ _ _ => Ok root) verbose q bracket t eta xe i ic 0 y0 ic' y root NI C) as (A1 & A2 & A3 & A4 & A5 & A6 & A7 & _ & A8).
  repeat (split; [assumption|]). split; [|exact A8]. exists a0. split; [reflexivity|exact FR].
Qed.

(** ** C86: construction of ISIC_NsOk. Flat targets are refused whatever the other arguments; an
    empty bracket has no last element; otherwise construction succeeds exactly if the last bracket
    value is an admissible start, and the object's stopping point is ln a0 with Omega_K0 the
    curvature density at a0. *)
Theorem C86_constructor : forall F q N_star OK0 h bracket t eta xe kw, phys_ok F -> 0 < h ->
  (OK0 = 0 -> ns_init F q N_star OK0 h bracket t eta xe kw = Raise AssertionError) /\
  (OK0 <> 0 -> bracket = [] -> ns_init F q N_star OK0 h bracket t eta xe kw = Raise IndexError) /\
  (OK0 <> 0 -> forall bs b, bracket = (bs ++ [b])%list ->
     (forall e, is_init q b t eta xe kw = Raise e -> ns_init F q N_star OK0 h bracket t eta xe kw = Raise e) /\
     (forall ic, is_init q b t eta xe kw = Ok ic -> exists o H0, ns_init F q N_star OK0 h bracket t eta xe kw = Ok o /\
        ns_ic o = ic /\ ns_N_star o = N_star /\ ns_bracket o = bracket /\ ns_OK0 o = OK0 /\ ns_h o = h /\
        get_H0 F h "planck" = Ok H0 /\ Rabs OK0 = 1 / (exp (ns_N0 o) * H0) ^ 2)).
Proof.
  intros F q N_star OK0 h bracket t eta xe kw HF Hh. unfold ns_init. split; [|split].
  - intros ->. destruct (Req_EM_T 0 0); [reflexivity|lra].
  - intros Z ->. destruct (Req_EM_T OK0 0); [contradiction|]. reflexivity.
  - intros Z bs b ->. destruct (Req_EM_T OK0 0); [contradiction|]. unfold last_of. rewrite rev_app_distr. cbn [rev app bind]. split.
    + intros e E. rewrite E. reflexivity.
    + intros ic E. rewrite E. cbn [bind].
      destruct (C63_scale_factor_today F HF h OK0 Hh Z) as (H0 & a0 & aM & aS & E1 & E2 & _ & _ & P & EK & _). rewrite E2. cbn [bind].
      eexists. exists H0. split; [reflexivity|]. cbn. repeat (split; [reflexivity|]). split; [exact E1|]. rewrite exp_ln by exact P.
      assert (NZ : a0 * H0 <> 0).
      { intros X. rewrite X in EK. unfold Rdiv in EK. rewrite pow_i, Rinv_0, Rmult_0_r in EK by auto. contradiction. }
      unfold Kof in EK. destruct (Rlt_dec 0 OK0).
      * rewrite Rabs_pos_eq by lra. rewrite EK at 1. field. split; intros X; apply NZ; rewrite X; ring.
      * rewrite Rabs_left by lra. rewrite EK at 1. field. split; intros X; apply NZ; rewrite X; ring.
Qed.
Theorem C86_constructor_nonvacuous : exists ic, is_init (IT 1 Uex true) 1 (Some 1) (Some 0) 10 (kw_of (InN 5)) = Ok ic.
Proof.
  eexists. apply is_from_N. cbn [ie_U ie_K pV Uex]. pose proof (exp_ineq1 (2 * 5) ltac:(lra)). lra.
Qed.
