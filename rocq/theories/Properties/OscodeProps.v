(** C57, C58, C79: solve_oscode. *)
From Coq Require Import Reals List String Bool Lra Lia.
From Coquelicot Require Import Coquelicot.
From Verif Require Import Base Model.Potentials Model.Equations Model.Background Model.Float Model.Perturbations Model.Oscode
  Spec.OscodeSpec Proofs.OscodeWin Proofs.OscodeLoop Proofs.BackgroundEx.
Import ListNotations.
Open Scope R_scope.
Open Scope string_scope.

(* ------------------------------------------------------------------ *)
(** ** C57: integration window *)
Theorem C57_window :
  forall logaH Ns k fac_beg fac_end i j,
  0 < k -> 0 <= fac_beg -> 0 < fac_end -> List.length logaH = List.length Ns ->
  (window logaH Ns k fac_beg fac_end = Ok (i, j) <->
   window_begin logaH k fac_beg i /\ window_end logaH Ns k fac_end i j).
Proof. intros. apply window_spec; assumption. Qed.
Theorem C57_window_ordered :
  forall logaH Ns k fac_beg fac_end i j,
  0 < k -> 0 <= fac_beg -> 0 < fac_end -> List.length logaH = List.length Ns -> increasing Ns ->
  window logaH Ns k fac_beg fac_end = Ok (i, j) -> (i < j < List.length Ns)%nat /\ nth j Ns 0 - nth i Ns 0 >= 10.
Proof.
  intros la Ns k fb fe i j Hk Hfb Hfe LEN INC E. apply window_spec in E; try assumption.
  destruct E as [WB (c & (C1 & C2 & C3) & E1 & E2)].
  assert (Li : (i < List.length Ns)%nat).
  { destruct WB as [A B]. assert (0 < List.length Ns)%nat by lia.
    destruct (Req_dec fb 0) as [E|E]; [rewrite (A E); assumption|]. destruct (B E) as [(L & _)|[_ ->]]; lia. }
  assert (Q : (j < List.length Ns)%nat /\ nth j Ns 0 - nth i Ns 0 >= 10).
  { destruct (Rlt_dec (nth c Ns 0 - nth i Ns 0) 10) as [L|L].
    - destruct (E2 L) as (A & B & _). unfold ten_after in B. split; [exact A|lra].
    - rewrite (E1 ltac:(lra)). split; [lia|lra]. }
  destruct Q as [Q1 Q2]. split; [|exact Q2]. split; [|exact Q1].
  destruct (Nat.lt_trichotomy i j) as [L|[->|L]]; [exact L|lra|].
  pose proof (INC j i ltac:(lia)). lra.
Qed.
(** the only error of the window computation, and its meaning *)
Theorem C57_window_error :
  forall logaH Ns k fac_beg fac_end e,
  0 < k -> 0 <= fac_beg -> 0 < fac_end -> List.length logaH = List.length Ns ->
  window logaH Ns k fac_beg fac_end = Raise e ->
  e = IndexError /\ forall i j, ~ (window_begin logaH k fac_beg i /\ window_end logaH Ns k fac_end i j).
Proof. intros. eapply window_error; eassumption. Qed.
(** solve_oscode integrates exactly over that window: the integrator is only called with the
    samples i..j of the independent variable (and coefficient arrays of that length), starting at
    x[i] and ending at x[j] *)
Theorem C57_integration_range :
  forall osc1 osc2 med b k vacuum drop fac_beg fac_end y0 i j xi xj,
  window (ob_logaH b) (map s_N (ob_s b)) k fac_beg fac_end = Ok (i, j) -> (i <= j)%nat ->
  List.length (ob_x b) = List.length (ob_s b) ->
  nth_error (ob_x b) i = Some xi -> nth_error (ob_x b) j = Some xj ->
  (forall xs ws gs x0 dx0, is_range xs (ob_x b) i j -> List.length gs = S (j - i) -> List.length ws = S (j - i) ->
     osc1 xs xi xj ws gs x0 dx0 = osc2 xs xi xj ws gs x0 dx0) ->
  solve_oscode osc1 med b (KScalar k) vacuum drop fac_beg fac_end y0 false
  = solve_oscode osc2 med b (KScalar k) vacuum drop fac_beg fac_end y0 false.
Proof.
  intros o1 o2 med b k vac drop fb fe y0 i j xi xj W IJ LX Ei Ej SAME. unfold solve_oscode.
  assert (Lj : (j < List.length (ob_x b))%nat) by (apply nth_error_Some; congruence).
  assert (Rx : is_range (slice i j (ob_x b)) (ob_x b) i j) by (apply slice_range; assumption).
  assert (Rs : is_range (slice i j (ob_s b)) (ob_s b) i j) by (apply slice_range; [assumption|rewrite <- LX; assumption]).
  destruct (init_pps b [k] _) as [S|e]; [|reflexivity]. cbn [bind k_loop].
  assert (Q : forall vs y, solve_mode o1 med b vs drop fb fe y k = solve_mode o2 med b vs drop fb fe y k).
  { intros vs y. unfold solve_mode. rewrite W. cbn [bind fst snd].
    destruct (if String.eqb (ob_indep b) "t" then Ok true else _) as [time|e]; [|reflexivity]. cbn [bind].
    assert (Ei' : at_index (ob_x b) i = Ok xi) by (unfold at_index; rewrite Ei; reflexivity).
    assert (Ej' : at_index (ob_x b) j = Ok xj) by (unfold at_index; rewrite Ej; reflexivity).
    rewrite Ei'. cbn [bind]. rewrite Ej'. cbn [bind].
    destruct (at_index (ob_s b) i) as [s0|e]; [|reflexivity]. cbn [bind].
    assert (R : forall tensor x0 dx0, o1 (slice i j (ob_x b)) xi xj (fst (mode_coeffs time tensor (ob_K b) k (ob_U b) (slice i j (ob_s b)))) (snd (mode_coeffs time tensor (ob_K b) k (ob_U b) (slice i j (ob_s b)))) x0 dx0
       = o2 (slice i j (ob_x b)) xi xj (fst (mode_coeffs time tensor (ob_K b) k (ob_U b) (slice i j (ob_s b)))) (snd (mode_coeffs time tensor (ob_K b) k (ob_U b) (slice i j (ob_s b)))) x0 dx0).
    { intros tensor x0 dx0. apply SAME; [exact Rx| |]; unfold mode_coeffs; cbn [fst snd].
      - rewrite map_length. apply Rs.
      - unfold ms_frequency. destruct (forallb _ _); rewrite !map_length; apply Rs. }
    repeat match goal with |- context [at_index y ?n] => destruct (at_index y n); cbn [bind]; try reflexivity end.
    rewrite !R. reflexivity. }
  rewrite Q. reflexivity.
Qed.
Theorem C57_nonvacuous :
  increasing [0; 1; 6; 12; 15] /\ window [0; 0; 2; 6; 8] [0; 1; 6; 12; 15] 1 0 100 = Ok (0%nat, 3%nat).
Proof.
  split.
  - intros i j H. cbn in H. destruct i as [|[|[|[|[|]]]]], j as [|[|[|[|[|]]]]]; cbn; try lia; lra.
  - apply window_spec; try lra; [reflexivity|].
    assert (E3 : forall x y, exp x > y -> exp x > 1 * y) by (intros; lra).
    assert (E6 : exp 6 > 100).
    { replace 6 with (1+1+1+1+1+1) by ring. rewrite !exp_plus. pose proof (exp_ineq1 1 ltac:(lra)) as A.
      assert (B : 27 / 10 <= exp 1).
      { pose proof (exp_ge_taylor 1 6 ltac:(lra)) as T. cbn in T. lra. }
      assert (B2 : (27/10)*(27/10) <= exp 1 * exp 1) by (apply Rmult_le_compat; lra).
      assert (B3 : (27/10)*(27/10)*((27/10)*(27/10)) <= exp 1 * exp 1 * (exp 1 * exp 1)) by (apply Rmult_le_compat; lra).
      assert (B4 : (27/10)*(27/10)*((27/10)*(27/10))*((27/10)*(27/10)) <= exp 1 * exp 1 * (exp 1 * exp 1) * (exp 1 * exp 1)) by (apply Rmult_le_compat; lra).
      lra. }
    assert (E2 : exp 2 <= 9).
    { replace 2 with (1+1) by ring. rewrite exp_plus. pose proof exp_le_3. pose proof (exp_pos 1). assert (exp 1 * exp 1 <= 3 * 3) by (apply Rmult_le_compat; lra). lra. }
    split.
    + split; [reflexivity|]. intros X. destruct X. reflexivity.
    + exists 3%nat. split; [|split; [reflexivity|intros X; cbn in X; lra]].
      split; [cbn; lia|]. split; [unfold outside_by; cbn; lra|].
      intros i Hi. unfold outside_by. destruct i as [|[|[|]]]; cbn; try rewrite exp_0; try lra; lia.
Qed.

(* ------------------------------------------------------------------ *)
(** ** C79: where the integration stops *)
(** With a horizon that only shrinks along the samples the last sample is outside by fac_end. *)
Theorem C79_stops_outside_horizon_partial :
  forall logaH Ns k fac_beg fac_end i j,
  0 < k -> 0 <= fac_beg -> 0 < fac_end -> List.length logaH = List.length Ns -> increasing Ns ->
  (forall m n, (m <= n < List.length logaH)%nat -> nth m logaH 0 <= nth n logaH 0) ->
  window logaH Ns k fac_beg fac_end = Ok (i, j) -> outside_by logaH k fac_end j.
Proof.
  intros la Ns k fb fe i j Hk Hfb Hfe LEN INC MON E. pose proof E as E'. apply window_spec in E; try assumption.
  destruct E as [WB (c & (C1 & C2 & C3) & E1 & E2)].
  destruct (Rlt_dec (nth c Ns 0 - nth i Ns 0) 10) as [L|L]; [|rewrite (E1 ltac:(lra)); exact C2].
  destruct (E2 L) as (A & B & _). unfold ten_after in B.
  assert (LT : (c < j)%nat).
  { destruct (Nat.lt_trichotomy c j) as [X|[->|X]]; [exact X|lra|]. pose proof (INC j c ltac:(lia)). lra. }
  unfold outside_by in *. pose proof (MON c j ltac:(lia)) as M. destruct M as [M|M]; [|rewrite <- M; exact C2].
  apply exp_increasing in M. lra.
Qed.
(** Without it (the horizon grows before inflation starts) the integration may stop while the mode
    is still inside the horizon: the second criterion only asks for ten e-folds. *)
Theorem C79_stops_outside_horizon_refuted :
  ~ (forall logaH Ns k fac_beg fac_end i j,
     0 < k -> 0 <= fac_beg -> 0 < fac_end -> List.length logaH = List.length Ns -> increasing Ns ->
     window logaH Ns k fac_beg fac_end = Ok (i, j) -> outside_by logaH k fac_end j).
Proof.
  intros C.
  assert (W : window [20; 0; 0; 20] [0; 5; 11; 31] 2 0 100 = Ok (0%nat, 2%nat)).
  { apply window_spec; try lra; [reflexivity|]. split; [split; [reflexivity|intros X; destruct X; reflexivity]|].
    exists 0%nat. split; [|split; [intros X; cbn in X; lra|]].
    - split; [cbn; lia|]. split; [|intros i Hi; lia]. unfold outside_by; cbn.
      assert (E : 1000 < exp 20).
      { replace 20 with (1 + 1 + 1 + 1 + 1 + 1 + 1 + 1 + 1 + 1 + 10) by ring. rewrite !exp_plus.
        pose proof (exp_ineq1 1 ltac:(lra)) as A. pose proof (exp_ineq1 10 ltac:(lra)) as A10.
        assert (B2 : 2 * 2 <= exp 1 * exp 1) by (apply Rmult_le_compat; lra).
        assert (B4 : 4 * 4 <= exp 1 * exp 1 * (exp 1 * exp 1)) by (apply Rmult_le_compat; lra).
        assert (B8 : 16 * 16 <= exp 1 * exp 1 * (exp 1 * exp 1) * (exp 1 * exp 1 * (exp 1 * exp 1))) by (apply Rmult_le_compat; lra).
        assert (B11 : 256 * (4 * 10) <= exp 1 * exp 1 * (exp 1 * exp 1) * (exp 1 * exp 1 * (exp 1 * exp 1)) * (exp 1 * exp 1 * exp 10)).
        { apply Rmult_le_compat; try lra. apply Rmult_le_compat; lra. }
        lra. }
      lra.
    - intros _. split; [cbn; lia|]. unfold ten_after. split; [cbn; lra|]. intros i Hi. destruct i as [|[|]]; cbn; try lra; lia. }
  assert (INC : increasing [0; 5; 11; 31]).
  { intros i j H. cbn in H. destruct i as [|[|[|[|]]]], j as [|[|[|[|]]]]; cbn; try lia; lra. }
  pose proof (C [20; 0; 0; 20] [0; 5; 11; 31] 2 0 100 0%nat 2%nat ltac:(lra) ltac:(lra) ltac:(lra) eq_refl INC W) as X.
  unfold outside_by in X. cbn in X. rewrite exp_0 in X. lra.
Qed.
Theorem C79_nonvacuous : (forall m n, (m <= n < 5)%nat -> nth m [0; 0; 2; 6; 8] 0 <= nth n [0; 0; 2; 6; 8] 0).
Proof. intros i j H. destruct i as [|[|[|[|[|]]]]], j as [|[|[|[|[|]]]]]; cbn; try lia; lra. Qed.

(* ------------------------------------------------------------------ *)
(** ** C58: the spectrum arrays are filled pointwise *)
Section C58.
Variables (oscode : list R -> R -> R -> list C -> list R -> R -> R -> list C * list C) (nanmedian : list C -> C).
Notation call := (solve_oscode oscode nanmedian).

Lemma solve_mode_has b vs drop fb fe y0 k p : solve_mode oscode nanmedian b vs drop fb fe y0 k = Ok p ->
  pk p = k /\ has vs (pP_s p) /\ has vs (pP_t p) /\
  (In "RST" vs -> k < 1 -> ob_K b = 1 -> drop = true -> dget "RST" (pP_s p) = Ok (1 / 10^30)).
Proof.
  unfold solve_mode. intros E.
  destruct (window _ _ _ _ _) as [w|e]; cbn [bind] in E; [|discriminate].
  destruct (if String.eqb (ob_indep b) "t" then Ok true else _) as [time|e]; cbn [bind] in E; [|discriminate].
  destruct (at_index (ob_x b) (fst w)) as [ti|e]; cbn [bind] in E; [|discriminate].
  destruct (at_index (ob_x b) (snd w)) as [tf|e]; cbn [bind] in E; [|discriminate].
  destruct (at_index (ob_s b) (fst w)) as [s0|e]; cbn [bind] in E; [|discriminate].
  repeat match type of E with context [at_index y0 ?n] => destruct (at_index y0 n); cbn [bind] in E; [|discriminate] end.
  match type of E with context [mode_powers ?a ?b ?c ?d ?f ?g] => destruct (mode_powers a b c d f g) as [Ps|e] eqn:EPs end; cbn [bind] in E; [|discriminate].
  match type of E with context [mode_powers ?a ?b ?c ?d ?f ?g] => destruct (mode_powers a b c d f g) as [Pt|e] eqn:EPt end; cbn [bind] in E; [|discriminate].
  injection E as <-. cbn [pP_s pP_t pk].
  assert (A : has vs Ps). { intros v Hv. destruct (mode_powers_get _ _ _ _ _ _ _ EPs v Hv) as (P & _ & E). exists P. exact E. }
  assert (B : has vs Pt). { intros v Hv. destruct (mode_powers_get _ _ _ _ _ _ _ EPt v Hv) as (P & _ & E). exists P. exact E. }
  split; [reflexivity|]. split; [|split; [exact B|]].
  - destruct (_ && _ && _)%bool; [|exact A]. intros v Hv. rewrite dget_dset. destruct (String.eqb v "RST"); [eexists; reflexivity|exact (A v Hv)].
  - intros _ Lk EK ->. rewrite (proj2 (rltb_true k 1) Lk). destruct (Req_EM_T (ob_K b) 1); [|lra]. cbn [andb].
    rewrite dget_dset, String.eqb_refl. reflexivity.
Qed.

(** the scalar call returns the mode object of that wavenumber *)
Lemma scalar_call b k vs drop fb fe y0 :
  call b (KScalar k) (Some vs) drop fb fe (Some y0) false =
  match ob_logaH_star b with
  | None => Raise AttributeError
  | Some _ => match solve_mode oscode nanmedian b vs drop fb fe y0 k with Ok p => Ok (RetMode (Some p)) | Raise e => Raise e end
  end.
Proof.
  unfold solve_oscode, init_pps. destruct (ob_logaH_star b) as [l|]; [|reflexivity]. cbn [bind].
  set (S0 := mkpps _ _ _ _).
  pose proof (loop_spec (solve_mode oscode nanmedian b vs drop fb fe y0) vs
     (fun k p H => conj (proj1 (proj2 (solve_mode_has b vs drop fb fe y0 k p H))) (proj1 (proj2 (proj2 (solve_mode_has b vs drop fb fe y0 k p H))))) 1%nat [k] 0 S0 None) as L.
  assert (SZ : sized vs 1 S0).
  { unfold S0; split; intros v Hv; cbn [ps_s ps_t]; exists [NaN]; (split; [apply (proj1 (init_arrays [k] vs []) v Hv)|reflexivity]). }
  specialize (L SZ ltac:(cbn; lia)). destruct (k_loop _ vs 0 [k] S0 None) as [[S' p']|e] eqn:EL; cbn [bind snd].
  - destruct L as (_ & _ & _ & OKs & -> & _). destruct (OKs k ltac:(left; reflexivity)) as [q Eq]. cbn [last]. rewrite Eq. reflexivity.
  - destruct L as (k' & [<-|[]] & E). rewrite E. reflexivity.
Qed.

(** the array call: entry i of P_s_<vac> and P_t_<vac> is the power of the mode object returned by
    the scalar call for k[i]; other wavenumbers do not matter *)
Theorem C58_pointwise :
  forall b ks vs drop fb fe y0 S,
  call b (KArray ks) (Some vs) drop fb fe (Some y0) false = Ok (RetPPS S) ->
  ps_k S = ks /\
  forall vac, In vac vs -> exists Ps Pt,
    dget vac (ps_s S) = Ok Ps /\ dget vac (ps_t S) = Ok Pt /\
    List.length Ps = List.length ks /\ List.length Pt = List.length ks /\
    forall i, (i < List.length ks)%nat -> exists p s t,
      call b (KScalar (nth i ks 0)) (Some vs) drop fb fe (Some y0) false = Ok (RetMode (Some p)) /\
      pk p = nth i ks 0 /\ dget vac (pP_s p) = Ok s /\ dget vac (pP_t p) = Ok t /\
      nth i Ps NaN = Fin s /\ nth i Pt NaN = Fin t.
Proof.
  intros b ks vs drop fb fe y0 S E. pose proof (fun k => scalar_call b k vs drop fb fe y0) as SC.
  unfold solve_oscode in E. unfold init_pps in E. destruct (ob_logaH_star b) as [l|]; [|discriminate]. cbn [bind] in E.
  set (S0 := mkpps _ _ _ _) in E.
  pose proof (loop_spec (solve_mode oscode nanmedian b vs drop fb fe y0) vs
     (fun k p H => conj (proj1 (proj2 (solve_mode_has b vs drop fb fe y0 k p H))) (proj1 (proj2 (proj2 (solve_mode_has b vs drop fb fe y0 k p H))))) (List.length ks) ks 0 S0 None) as L.
  assert (A0 : forall v, In v vs -> dget v (ps_s S0) = Ok (map (fun _ : R => NaN) ks)) by (intros v Hv; apply (proj1 (init_arrays ks vs []) v Hv)).
  assert (SZ : sized vs (List.length ks) S0).
  { split; intros v Hv; exists (map (fun _ : R => NaN) ks); (split; [apply (A0 v Hv)|apply map_length]). }
  specialize (L SZ ltac:(lia)). destruct (k_loop _ vs 0 ks S0 None) as [[S' p']|e] eqn:EL; cbn [bind fst] in E; [|discriminate].
  injection E as <-. destruct L as (SZ' & K1 & _ & OKs & _ & F & G). split; [rewrite K1; reflexivity|].
  intros v Hv. destruct (proj1 SZ' v Hv) as (Ps & E1 & N1). destruct (proj2 SZ' v Hv) as (Pt & E2 & N2).
  exists Ps, Pt. split; [exact E1|]. split; [exact E2|]. split; [exact N1|]. split; [exact N2|].
  intros i Hi. destruct (OKs (nth i ks 0) (nth_In _ _ Hi)) as [q Eq].
  destruct (solve_mode_has b vs drop fb fe y0 _ _ Eq) as (Q0 & Q1 & Q2 & _).
  destruct (Q1 v Hv) as [s Es]. destruct (Q2 v Hv) as [t Et]. exists q, s, t.
  split; [rewrite SC, Eq; reflexivity|]. split; [exact Q0|]. split; [exact Es|]. split; [exact Et|].
  pose proof (F v _ Ps Hv (A0 v Hv) E1 i) as F1. pose proof (G v _ Pt Hv (A0 v Hv) E2 i) as G1.
  rewrite Nat.sub_0_r, Eq in F1, G1. rewrite Es in F1. rewrite Et in G1.
  replace (Nat.leb 0 i && Nat.ltb i (0 + List.length ks))%bool with true in F1, G1.
  2:{ symmetry. apply andb_true_iff. split; [apply Nat.leb_le; lia|apply Nat.ltb_lt; lia]. }
  split; assumption.
Qed.
(** the array call fails exactly if the background is not calibrated or one of the scalar calls fails *)
Theorem C58_succeeds :
  forall b ks vs drop fb fe y0,
  ob_logaH_star b <> None ->
  ((exists S, call b (KArray ks) (Some vs) drop fb fe (Some y0) false = Ok (RetPPS S)) <->
   (forall k, In k ks -> exists p, call b (KScalar k) (Some vs) drop fb fe (Some y0) false = Ok (RetMode (Some p)))).
Proof.
  intros b ks vs drop fb fe y0 CAL. split.
  - intros [S E] k Hk. destruct (In_nth ks k 0 Hk) as (i & Hi & <-). 
    pose proof (fun k => scalar_call b k vs drop fb fe y0) as SC.
    unfold solve_oscode in E. unfold init_pps in E. destruct (ob_logaH_star b) as [l|]; [|discriminate]. cbn [bind] in E.
    set (S0 := mkpps _ _ _ _) in E.
    pose proof (loop_spec (solve_mode oscode nanmedian b vs drop fb fe y0) vs
     (fun k p H => conj (proj1 (proj2 (solve_mode_has b vs drop fb fe y0 k p H))) (proj1 (proj2 (proj2 (solve_mode_has b vs drop fb fe y0 k p H))))) (List.length ks) ks 0 S0 None) as L.
    assert (SZ : sized vs (List.length ks) S0).
    { split; intros v Hv; exists (map (fun _ : R => NaN) ks); (split; [apply (proj1 (init_arrays ks vs []) v Hv)|apply map_length]). }
    specialize (L SZ ltac:(lia)). destruct (k_loop _ vs 0 ks S0 None) as [[S' p']|e] eqn:EL; cbn [bind fst] in E; [|discriminate].
    destruct L as (_ & _ & _ & OKs & _). destruct (OKs (nth i ks 0) (nth_In ks 0 Hi)) as [q Eq]. exists q. rewrite SC, Eq. reflexivity.
  - intros ALL. pose proof (fun k => scalar_call b k vs drop fb fe y0) as SC.
    unfold solve_oscode. unfold init_pps. destruct (ob_logaH_star b) as [l|] eqn:EL0; [|congruence]. cbn [bind].
    set (S0 := mkpps _ _ _ _).
    pose proof (loop_spec (solve_mode oscode nanmedian b vs drop fb fe y0) vs
     (fun k p H => conj (proj1 (proj2 (solve_mode_has b vs drop fb fe y0 k p H))) (proj1 (proj2 (proj2 (solve_mode_has b vs drop fb fe y0 k p H))))) (List.length ks) ks 0 S0 None) as L.
    assert (SZ : sized vs (List.length ks) S0).
    { split; intros v Hv; exists (map (fun _ : R => NaN) ks); (split; [apply (proj1 (init_arrays ks vs []) v Hv)|apply map_length]). }
    specialize (L SZ ltac:(lia)). destruct (k_loop _ vs 0 ks S0 None) as [[S' p']|e] eqn:EL; cbn [bind fst].
    + exists S'. reflexivity.
    + destruct L as (k & Hk & Ek). destruct (ALL k Hk) as [p Ep]. rewrite SC, Ek in Ep. discriminate.
Qed.
(** closed universes: scales k < 1 are suppressed in the RST spectrum *)
Theorem C58_closed_large_scales_partial :
  forall b k vs fb fe y0 p, In "RST" vs -> ob_K b = 1 -> k < 1 ->
  call b (KScalar k) (Some vs) true fb fe (Some y0) false = Ok (RetMode (Some p)) ->
  dget "RST" (pP_s p) = Ok (1 / 10^30).
Proof.
  intros b k vs fb fe y0 p I EK Lk E. rewrite scalar_call in E. destruct (ob_logaH_star b); [|discriminate].
  destruct (solve_mode oscode nanmedian b vs true fb fe y0 k) as [q|e] eqn:Eq; [|discriminate]. injection E as <-.
  destruct (solve_mode_has b vs true fb fe y0 k q Eq) as (_ & _ & _ & Z). apply Z; auto.
Qed.
End C58.

(** a concrete run: closed universe, three samples, an integrator that returns its initial data *)
Definition osc_const (ts : list R) (ti tf : R) (ws : list C) (gs : list R) (x0 dx0 : R) : list C * list C := ([RtoC x0], [RtoC dx0]).
Definition med_hd (l : list C) : C := hd (RtoC 0) l.
Definition bg_ex : obg := mkobg 1 (Vexp 4) [0; 5; 11]
  [mksample 0 1 0 1 1 0; mksample 5 1 0 1 1 0; mksample 11 1 0 1 1 0] [0; 5; 11] (Some 0) "_N" [1; 0; 0; 1].
Lemma bg_ex_window : window [0; 5; 11] [0; 5; 11] (1/2) 0 100 = Ok (0%nat, 2%nat).
Proof.
  assert (E5 : 50 < exp 5).
  { replace 5 with (1+1+1+1+1) by ring. rewrite !exp_plus.
    assert (B : 27 / 10 <= exp 1) by (pose proof (exp_ge_taylor 1 6 ltac:(lra)) as T; cbn in T; lra).
    assert (B2 : (27/10)*(27/10) <= exp 1 * exp 1) by (apply Rmult_le_compat; lra).
    assert (B3 : (27/10)*(27/10)*((27/10)*(27/10)) <= exp 1 * exp 1 * (exp 1 * exp 1)) by (apply Rmult_le_compat; lra).
    assert (B4 : (27/10)*(27/10)*((27/10)*(27/10))*(27/10) <= exp 1 * exp 1 * (exp 1 * exp 1) * (exp 1)) by (apply Rmult_le_compat; lra).
    lra. }
  apply window_spec; try lra; [reflexivity|]. split; [split; [reflexivity|intros X; destruct X; reflexivity]|].
  exists 1%nat. split; [|split; [intros X; cbn in X; lra|]].
  - split; [cbn; lia|]. split; [unfold outside_by; cbn; lra|]. intros [|i] Hi; [|lia]. unfold outside_by; cbn. rewrite exp_0. lra.
  - intros _. split; [cbn; lia|]. unfold ten_after. split; [cbn; lra|]. intros i Hi. destruct i as [|[|]]; cbn; try lra; lia.
Qed.
Lemma bg_ex_run : exists p, solve_oscode osc_const med_hd bg_ex (KScalar (1/2)) (Some ["k"]) true 0 100 (Some [1; 0; 0; 1]) false = Ok (RetMode (Some p)) /\
  exists P, dget "k" (pP_s p) = Ok P /\ P > 1 / 10^30.
Proof.
  rewrite scalar_call. cbn [ob_logaH_star bg_ex]. unfold solve_mode. cbn [ob_logaH ob_s bg_ex map s_N]. rewrite bg_ex_window.
  cbn [bind fst snd ob_indep bg_ex String.eqb Ascii.eqb Bool.eqb at_index nth_error ob_x ob_s Nat.mul Nat.add].
  unfold osc_const at 1 2 3 4. unfold mode_powers. cbn [fold_left bind vacuum_ic String.eqb Ascii.eqb Bool.eqb fst snd combine_solutions dset].
  eexists. split; [reflexivity|]. cbn [pP_s].
  assert (R1 : forall (q : bool) (x : R), dget "k" (if q then [("k", x); ("RST", 1 / 10^30)] else [("k", x)]) = Ok x) by (intros [|] x; reflexivity).
  rewrite R1. eexists. split; [reflexivity|].
  assert (EU : forall u d : C, (fst (coefficients_a_b u d (RtoC 1) (RtoC 0) (RtoC 0) (RtoC 1)) * med_hd (last_five [RtoC 1]) +
       snd (coefficients_a_b u d (RtoC 1) (RtoC 0) (RtoC 0) (RtoC 1)) * med_hd (last_five [RtoC 0]))%C = u).
  { intros u d. unfold coefficients_a_b, med_hd, last_five. cbn [fst snd List.length Nat.sub skipn hd].
    field. split; intros X; apply (f_equal fst) in X; cbn in X; lra. }
  rewrite EU. unfold Ns_vac_k. cbv zeta. cbn [fst s_N s_H s_dphidN]. rewrite Cmod_R.
  unfold scalar_pps_norm. rewrite exp_0. replace (2 * (1/2)) with 1 by field. rewrite sqrt_1.
  replace (1 / 1 / (1 * 1)) with 1 by field. rewrite Rabs_R1.
  pose proof PI_4 as P4. pose proof PI_RGT_0 as P0.
  replace (1 ^ 2 * ((1 / 2) ^ 3 / (2 * PI ^ 2))) with (1 / 16 * / (PI * PI)) by (field; lra).
  assert (I : / 16 <= / (PI * PI)) by (apply Rinv_le_contravar; [apply Rmult_lt_0_compat; lra|]; assert (PI * PI <= 4 * 4) by (apply Rmult_le_compat; lra); lra).
  lra.
Qed.
Theorem C58_nonvacuous :
  exists S, solve_oscode osc_const med_hd bg_ex (KArray [1/2; 1/2]) (Some ["k"]) true 0 100 (Some [1; 0; 0; 1]) false = Ok (RetPPS S).
Proof.
  apply C58_succeeds; [discriminate|]. destruct bg_ex_run as (p & E & _). intros k [<-|[<-|[]]]; exists p; exact E.
Qed.
(** the suppression is not applied to the other vacua *)
Theorem C58_closed_large_scales_refuted :
  ~ (forall oscode nanmedian b k vs fb fe y0 p vac, In vac vs -> ob_K b = 1 -> k < 1 ->
     solve_oscode oscode nanmedian b (KScalar k) (Some vs) true fb fe (Some y0) false = Ok (RetMode (Some p)) ->
     dget vac (pP_s p) = Ok (1 / 10^30)).
Proof.
  intros C. destruct bg_ex_run as (p & E & P & EP & LP).
  pose proof (C osc_const med_hd bg_ex (1/2) ["k"] 0 100 [1; 0; 0; 1] p "k" ltac:(left; reflexivity) eq_refl ltac:(lra) E) as X.
  rewrite EP in X. injection X as X. rewrite X in LP. exact (Rgt_irrefl _ LP).
Qed.
