(** C95: the dense output of solve_oscode. *)
From Coq Require Import Reals List String Bool ZArith Lra Lia.
From Coquelicot Require Import Coquelicot Complex.
From Verif Require Import Base Model.Potentials Model.Equations Model.Background Model.Float Model.Perturbations Model.Oscode Model.Dense
  Spec.OscodeSpec Spec.PerturbationSpec Proofs.FloatLemmas Proofs.OscodeWin Proofs.OscodeLoop Proofs.PertComb Properties.PertProps Properties.OscodeProps Properties.ModeProps.
Import ListNotations.
Open Scope R_scope.
Open Scope string_scope.

(** ** Specification of output grids *)
(** n points from a to b (one point: only a), in order and inside [a, b] *)
Definition from_to (a b : R) (n : nat) (r : list R) : Prop :=
  List.length r = n /\ nth 0 r 0 = a /\ ((2 <= n)%nat -> nth (n - 1) r 0 = b) /\
  (a < b -> forall i j, (i < j < n)%nat -> nth i r 0 < nth j r 0) /\ (a <= b -> forall x, In x r -> a <= x <= b).
(** constant differences, constant ratios *)
Definition evenly_spaced (r : list R) : Prop := exists d, forall i, (S i < List.length r)%nat -> nth (S i) r 0 - nth i r 0 = d.
Definition log_spaced (r : list R) : Prop := exists q, 0 < q /\ forall i, (S i < List.length r)%nat -> nth (S i) r 0 = q * nth i r 0.

(** ** numpy's grids on real numbers *)
Definition rgrid (a b : R) (n : nat) : list R := map (fun i => a + INR i * ((b - a) / INR (n - 1))) (seq 0 n).
Lemma linspace_fin a b n : linspace (Fin a) (Fin b) n = map Fin (rgrid a b n).
Proof.
  unfold linspace, rgrid. destruct n as [|[|m]]; [reflexivity| |].
  - cbn [seq map INR fsub fmul fadd Nat.sub]. apply (f_equal (fun x => [Fin x])). ring.
  - cbn [fsub]. replace (S (S m) - 1)%nat with (S m) by lia. assert (NZ : INR (S m) <> 0) by (apply not_0_INR; lia). rewrite fdiv_fin by exact NZ.
    rewrite (seq_S (S m) 0). rewrite !map_app. rewrite map_map. f_equal.
    + apply map_ext. intros i. cbn [fmul fadd]. f_equal. ring.
    + cbn [map Nat.add]. apply (f_equal (fun x => [Fin x])). field. exact NZ.
Qed.
Lemma rgrid_nth a b n i : (i < n)%nat -> nth i (rgrid a b n) 0 = a + INR i * ((b - a) / INR (n - 1)).
Proof.
  intros H. unfold rgrid. rewrite (nth_indep _ 0 (a + INR 0 * ((b - a) / INR (n - 1)))) by (rewrite map_length, seq_length; exact H).
  rewrite (map_nth (fun i => a + INR i * ((b - a) / INR (n - 1)))). rewrite seq_nth by exact H. reflexivity.
Qed.
Lemma rgrid_from_to a b n : (1 <= n)%nat -> from_to a b n (rgrid a b n) /\ evenly_spaced (rgrid a b n).
Proof.
  intros Hn. assert (LE : List.length (rgrid a b n) = n) by (unfold rgrid; rewrite map_length, seq_length; reflexivity). split.
  - split; [exact LE|]. split; [rewrite rgrid_nth by lia; cbn; ring|]. split.
    { intros H2. rewrite rgrid_nth by lia. field. apply not_0_INR. lia. }
    split.
    + intros AB i j Hij. rewrite !rgrid_nth by lia. assert (P : 0 < INR (n - 1)) by (apply lt_0_INR; lia).
      assert (0 < (b - a) / INR (n - 1)) by (apply Rdiv_lt_0_compat; lra). assert (INR i < INR j) by (apply lt_INR; lia). nra.
    + intros AB x I. apply in_map_iff in I. destruct I as (i & <- & I). apply in_seq in I. destruct (Nat.eq_dec n 1) as [->|N1].
      { replace i with 0%nat by lia. cbn [INR]. lra. }
      assert (P : 0 < INR (n - 1)) by (apply lt_0_INR; lia). assert (Q : INR i <= INR (n - 1)) by (apply le_INR; lia). pose proof (pos_INR i).
      assert (D : 0 <= (b - a) / INR (n - 1)) by (apply Rmult_le_pos; [lra|left; apply Rinv_0_lt_compat, P]).
      split; [nra|]. assert (E : b = a + INR (n - 1) * ((b - a) / INR (n - 1))) by (field; lra). rewrite E at 2. nra.
  - exists ((b - a) / INR (n - 1)). intros i Hi. rewrite LE in Hi. rewrite !rgrid_nth by lia. rewrite S_INR. ring.
Qed.
Lemma ln10_pos : 0 < ln 10. Proof. rewrite <- ln_1. apply ln_increasing; lra. Qed.
Definition lgrid (a b : R) (n : nat) : list R := map exp (rgrid (ln a) (ln b) n).
Lemma rgrid_scale c a b n : c <> 0 -> map (fun y => y * c) (rgrid (a / c) (b / c) n) = rgrid a b n.
Proof. intros Hc. unfold rgrid. rewrite map_map. apply map_ext. intros i. unfold Rdiv. set (v := / INR (n - 1)). clearbody v. field. exact Hc. Qed.
Lemma logspace_fin a b n : 0 < a -> 0 < b -> logspace (flog10 (Fin a)) (flog10 (Fin b)) n = map Fin (lgrid a b n).
Proof.
  intros Ha Hb. pose proof ln10_pos as LT. unfold logspace, flog10, lgrid. rewrite !flog_fin by assumption. rewrite !fdiv_fin by lra. rewrite linspace_fin.
  rewrite <- (rgrid_scale (ln 10) (ln a) (ln b) n) by lra. rewrite !map_map. apply map_ext. intros y. reflexivity.
Qed.
Lemma lgrid_from_to a b n : 0 < a -> 0 < b -> (1 <= n)%nat -> from_to a b n (lgrid a b n) /\ log_spaced (lgrid a b n).
Proof.
  intros Ha Hb Hn. destruct (rgrid_from_to (ln a) (ln b) n Hn) as [(L & Z & E & M & I) [d D]]. unfold lgrid.
  assert (NT : forall i, (i < n)%nat -> nth i (map exp (rgrid (ln a) (ln b) n)) 0 = exp (nth i (rgrid (ln a) (ln b) n) 0)).
  { intros i Hi. rewrite (nth_indep _ 0 (exp 0)) by (rewrite map_length, L; exact Hi). apply map_nth. }
  split.
  - split; [rewrite map_length; exact L|]. split; [rewrite NT by lia; rewrite Z; apply exp_ln, Ha|].
    split; [intros H2; rewrite NT by lia; rewrite E by exact H2; apply exp_ln, Hb|]. split.
    + intros AB i j Hij. rewrite !NT by lia. apply exp_increasing. apply M; [apply ln_increasing; assumption|exact Hij].
    + intros AB x Ix. apply in_map_iff in Ix. destruct Ix as (y & <- & Iy).
      assert (AB' : ln a <= ln b) by (destruct AB as [AB|<-]; [left; apply ln_increasing; assumption|lra]).
      destruct (I AB' y Iy) as [I1 I2]. split.
      * rewrite <- (exp_ln a Ha). destruct I1 as [I1|<-]; [left; apply exp_increasing, I1|lra].
      * rewrite <- (exp_ln b Hb). destruct I2 as [I2|<-]; [left; apply exp_increasing, I2|lra].
  - exists (exp d). split; [apply exp_pos|]. intros i Hi. rewrite map_length in Hi. rewrite !NT by lia. rewrite <- exp_plus. f_equal. specialize (D i ltac:(lia)). lra.
Qed.

(** ** the grids a run leaves on its modes *)
Section Props.
Variable osc : list R -> R -> R -> list C -> list R -> R -> R -> option (list fl) -> (list C * list C) * option (list (C * C)).
Variable med : list C -> C.

Lemma dense_call b N k vs drop fb fe y0 ne : 
  solve_oscode_dense osc med b N (KScalar k) (Some vs) drop fb fe (Some y0) ne false =
  match ob_logaH_star b with
  | None => Raise AttributeError
  | Some l => do S <- init_pps b [k] vs; do q <- solve_mode_dense osc med b N vs drop fb fe y0 ne k; do S' <- store 0 (dp_p q) S vs; Ok (DMode (Some q))
  end.
Proof.
  unfold solve_oscode_dense, init_pps. destruct (ob_logaH_star b); [|reflexivity]. cbn [bind k_loop_dense].
  destruct (solve_mode_dense _ _ _ _ _ _ _ _ _ _ _) as [q|]; [|reflexivity]. cbn [bind]. destruct (store _ _ _ _); reflexivity.
Qed.
(** what a run computed *)
Lemma dense_mode b N k vs drop fb fe y0 ne p : solve_oscode_dense osc med b N (KScalar k) (Some vs) drop fb fe (Some y0) ne false = Ok (DMode (Some p)) ->
  solve_mode_dense osc med b N vs drop fb fe y0 ne k = Ok p.
Proof.
  rewrite dense_call. destruct (ob_logaH_star b); [|discriminate]. unfold init_pps. destruct (ob_logaH_star b); [|discriminate]. cbn [bind].
  destruct (solve_mode_dense _ _ _ _ _ _ _ _ _ _ _) as [q|]; [|discriminate]. cbn [bind]. destruct (store _ _ _ _); [|discriminate]. cbn [bind]. congruence.
Qed.
Lemma mode_dense_grids b N vs drop fb fe y0 ne k p time i j : solve_mode_dense osc med b N vs drop fb fe y0 ne k = Ok p ->
  window (ob_logaH b) (map s_N (ob_s b)) k fb fe = Ok (i, j) -> ob_indep b = (if time : bool then "t" else "_N") ->
  mode_grids time b N ne i j = Ok (dp_grids p).
Proof.
  intros E W EI. unfold solve_mode_dense in E. rewrite W in E. cbn [bind fst snd] in E. rewrite EI in E.
  assert (ET : (if String.eqb (if time then "t" else "_N") "t" then Ok true
     else if String.eqb (if time then "t" else "_N") "_N" then Ok false else Raise NotImplementedError) = Ok time) by (destruct time; reflexivity).
  rewrite ET in E. cbn [bind] in E. destruct (mode_grids time b N ne i j) as [g|]; [|discriminate]. cbn [bind] in E.
  repeat match type of E with bind ?x _ = Ok _ => destruct x; [cbn [bind] in E|discriminate] end. injection E as <-. reflexivity.
Qed.

(** C95: the output points in cosmic time *)
Theorem C95_time_grid : forall b N k vs drop fb fe y0 ne p i j ti tf,
  solve_oscode_dense osc med b N (KScalar k) (Some vs) drop fb fe (Some y0) ne false = Ok (DMode (Some p)) ->
  window (ob_logaH b) (map s_N (ob_s b)) k fb fe = Ok (i, j) -> ob_indep b = "t" -> (0 < ne)%Z ->
  nth_error (ob_x b) i = Some ti -> nth_error (ob_x b) j = Some tf -> 0 < ti -> 0 < tf ->
  exists r, g_x (dp_grids p) = Some (map Fin r) /\ from_to ti tf (Z.to_nat ne) r /\ log_spaced r.
Proof.
  intros b N k vs drop fb fe y0 ne p i j ti tf E W EI HN E1 E2 T1 T2. apply dense_mode in E.
  pose proof (mode_dense_grids _ _ _ _ _ _ _ _ _ _ true i j E W EI) as G. unfold mode_grids in G. replace (0 <? ne)%Z with true in G by (symmetry; apply Z.ltb_lt, HN).
  unfold at_index in G. rewrite E1, E2 in G. cbn [bind] in G. injection G as <-. cbn [g_x]. rewrite logspace_fin by assumption.
  exists (lgrid ti tf (Z.to_nat ne)). split; [reflexivity|]. apply lgrid_from_to; [assumption|assumption|lia].
Qed.
(** C95: the output points in e-folds, and their calibrated values N_eval *)
Theorem C95_efolds_grid : forall b M k vs drop fb fe y0 ne p i j Ni Nf Mi Mf,
  solve_oscode_dense osc med b (Some M) (KScalar k) (Some vs) drop fb fe (Some y0) ne false = Ok (DMode (Some p)) ->
  window (ob_logaH b) (map s_N (ob_s b)) k fb fe = Ok (i, j) -> ob_indep b = "_N" -> (0 < ne)%Z ->
  nth_error (map s_N (ob_s b)) i = Some Ni -> nth_error (map s_N (ob_s b)) j = Some Nf -> nth_error M i = Some Mi -> nth_error M j = Some Mf ->
  exists r m, g_x (dp_grids p) = Some (map Fin r) /\ from_to Ni Nf (Z.to_nat ne) r /\ evenly_spaced r /\
    g_N (dp_grids p) = Some (map Fin m) /\ from_to Mi Mf (Z.to_nat ne) m /\
    (forall c, Mi = Ni + c -> Mf = Nf + c -> m = map (fun x => x + c) r).
Proof.
  intros b M k vs drop fb fe y0 ne p i j Ni Nf Mi Mf E W EI HN E1 E2 E3 E4. apply dense_mode in E.
  pose proof (mode_dense_grids _ _ _ _ _ _ _ _ _ _ false i j E W EI) as G. unfold mode_grids in G. replace (0 <? ne)%Z with true in G by (symmetry; apply Z.ltb_lt, HN).
  unfold at_index in G. rewrite E1, E2 in G. cbn [bind] in G. rewrite E3, E4 in G. cbn [bind] in G. injection G as <-. cbn [g_x g_N]. rewrite !linspace_fin.
  exists (rgrid Ni Nf (Z.to_nat ne)), (rgrid Mi Mf (Z.to_nat ne)). assert (HN' : (1 <= Z.to_nat ne)%nat) by lia.
  destruct (rgrid_from_to Ni Nf _ HN') as [A B]. destruct (rgrid_from_to Mi Mf _ HN') as [A' _].
  split; [reflexivity|]. split; [exact A|]. split; [exact B|]. split; [reflexivity|]. split; [exact A'|].
  intros c -> ->. unfold rgrid. rewrite map_map. apply map_ext. intros x. replace (Nf + c - (Ni + c)) with (Nf - Ni) by ring. ring.
Qed.
(** a window that begins at t = 0: every output point but the last is NaN *)
Theorem C95_zero_time : forall b N k vs drop fb fe y0 ne p i j tf,
  solve_oscode_dense osc med b N (KScalar k) (Some vs) drop fb fe (Some y0) ne false = Ok (DMode (Some p)) ->
  window (ob_logaH b) (map s_N (ob_s b)) k fb fe = Ok (i, j) -> ob_indep b = "t" -> (2 <= ne)%Z ->
  nth_error (ob_x b) i = Some 0 -> nth_error (ob_x b) j = Some tf -> 0 < tf ->
  g_x (dp_grids p) = Some (repeat NaN (Z.to_nat ne - 1) ++ [Fin tf])%list.
Proof.
  intros b N k vs drop fb fe y0 ne p i j tf E W EI HN E1 E2 T2. apply dense_mode in E. pose proof ln10_pos as LT.
  pose proof (mode_dense_grids _ _ _ _ _ _ _ _ _ _ true i j E W EI) as G. unfold mode_grids in G. replace (0 <? ne)%Z with true in G by (symmetry; apply Z.ltb_lt; lia).
  unfold at_index in G. rewrite E1, E2 in G. cbn [bind] in G. injection G as <-. cbn [g_x]. f_equal.
  unfold logspace, flog10. rewrite (flog_fin tf T2). rewrite (fdiv_fin (ln tf)) by lra. cbn [flog]. destruct (Rlt_dec 0 0) as [X|_]; [lra|]. destruct (Req_EM_T 0 0) as [_|X]; [|lra].
  cbn [fdiv]. destruct (Rlt_dec (ln 10) 0) as [X|_]; [lra|].
  destruct (Z.to_nat ne) as [|[|m]] eqn:EN; [lia|lia|]. unfold linspace. cbn [fsub fneg fadd]. rewrite map_app. cbn [map fmul fexp].
  replace (S (S m) - 1)%nat with (S m) by lia. f_equal.
  - rewrite map_map. assert (H : forall x, In x (seq 0 (S m)) -> fexp (fmul (fadd (fmul (Fin (INR x)) (fdiv PInf (Fin (INR (S m))))) NInf) (Fin (ln 10))) = NaN).
    { intros x _. cbn [fdiv]. assert (P : 0 < INR (S m)) by (apply lt_0_INR; lia). destruct (Rlt_dec (INR (S m)) 0) as [X|_]; [lra|]. cbn [fmul]. unfold inf_of. pose proof (pos_INR x).
      destruct (Rlt_dec 0 (INR x)); [reflexivity|]. destruct (Rlt_dec (INR x) 0) as [X|_]; [lra|]. reflexivity. }
    rewrite (map_ext_in _ (fun _ => NaN)) by exact H. clear. generalize 0%nat. induction (S m) as [|n IH]; intros s; [reflexivity|]. cbn [seq map repeat]. f_equal. apply IH.
  - do 2 f_equal. replace (ln tf / ln 10 * ln 10) with (ln tf) by (field; lra). apply exp_ln, T2.
Qed.

(** ** the dense output does not change the spectrum *)
Definition plain : list R -> R -> R -> list C -> list R -> R -> R -> list C * list C := fun ts ti tf ws gs x0 dx0 => fst (osc ts ti tf ws gs x0 dx0 None).
Lemma combine_ok norm v y1 dy1 y2 dy2 P : combine_solutions med norm v y1 dy1 y2 dy2 = Ok P -> exists ab, vac_coeffs v (y1, dy1) (y2, dy2) = Ok ab.
Proof. unfold combine_solutions, vac_coeffs. cbn [fst snd]. destruct y1, dy1, y2, dy2; try discriminate. eauto. Qed.
Lemma powers_none norm ic (r1 r2 : (list C * list C) * option (list (C * C))) vs : forall d : list (string * R) * list (string * list R),
  fold_left (fun acc vac => do d <- acc; do v <- ic vac;
    do P <- combine_solutions med norm v (fst (fst r1)) (snd (fst r1)) (fst (fst r2)) (snd (fst r2));
    do ab <- vac_coeffs v (fst r1) (fst r2); Ok (dset vac P (fst d), snd d)) vs (Ok d) =
  (do e <- fold_left (fun acc vac => do d <- acc; do v <- ic vac;
    do P <- combine_solutions med norm v (fst (fst r1)) (snd (fst r1)) (fst (fst r2)) (snd (fst r2)); Ok (dset vac P d)) vs (Ok (fst d)); Ok (e, snd d : list (string * list R))).
Proof.
  induction vs as [|vac vs IH]; intros [d e]; [reflexivity|]. cbn [fold_left bind fst snd].
  destruct (ic vac) as [v|x]; cbn [bind]; [|rewrite !fold_raise; reflexivity].
  destruct (combine_solutions _ _ _ _ _ _ _) as [P|x] eqn:EC; cbn [bind]; [|rewrite !fold_raise; reflexivity].
  destruct (combine_ok _ _ _ _ _ _ _ EC) as [ab EA]. rewrite <- !surjective_pairing in EA. rewrite EA. cbn [bind]. rewrite IH. reflexivity.
Qed.
Lemma powers_some norm ic (l : option (list fl)) (r1 r2 : (list C * list C) * option (list (C * C))) vs : forall d e d' e',
  fold_left (fun acc vac => do d <- acc; do v <- ic vac;
    do P <- combine_solutions med norm v (fst (fst r1)) (snd (fst r1)) (fst (fst r2)) (snd (fst r2));
    do ab <- vac_coeffs v (fst r1) (fst r2);
    match l with None => Ok (dset vac P (fst d), snd d) | Some _ =>
      match snd r1, snd r2 with
      | Some e1, Some e2 => Ok (dset vac P (fst d), dset vac (combine_eval norm ab (map fst e1) (map fst e2)) (snd d))
      | _, _ => Raise AttributeError end end) vs (Ok (d, e)) = Ok (d', e') ->
  fold_left (fun acc vac => do d <- acc; do v <- ic vac;
    do P <- combine_solutions med norm v (fst (fst r1)) (snd (fst r1)) (fst (fst r2)) (snd (fst r2)); Ok (dset vac P d)) vs (Ok d) = Ok d'.
Proof.
  induction vs as [|vac vs IH]; intros d e d' e' E; [injection E as <- _; reflexivity|]. cbn [fold_left bind fst snd] in *.
  destruct (ic vac) as [v|x]; cbn [bind] in *; [|rewrite fold_raise in E; discriminate].
  destruct (combine_solutions _ _ _ _ _ _ _) as [P|x] eqn:EC; cbn [bind] in *; [|rewrite fold_raise in E; discriminate].
  destruct (combine_ok _ _ _ _ _ _ _ EC) as [ab EA]. rewrite <- !surjective_pairing in EA. rewrite EA in E. cbn [bind] in E.
  destruct l as [l|]; [|exact (IH _ _ _ _ E)]. destruct (snd r1) as [e1|]; [|rewrite fold_raise in E; discriminate]. destruct (snd r2) as [e2|]; [|rewrite fold_raise in E; discriminate].
  exact (IH _ _ _ _ E).
Qed.
Lemma mode_powers_dense_none norm ic r1 r2 vs : mode_powers_dense med norm ic None r1 r2 vs =
  (do d <- mode_powers med norm ic (fst r1) (fst r2) vs; Ok (d, [])).
Proof. unfold mode_powers_dense, mode_powers. apply (powers_none norm ic r1 r2 vs ([], [])). Qed.
Lemma mode_powers_dense_fst norm ic l r1 r2 vs v : mode_powers_dense med norm ic l r1 r2 vs = Ok v ->
  mode_powers med norm ic (fst r1) (fst r2) vs = Ok (fst v).
Proof. destruct v as [d e]. unfold mode_powers_dense, mode_powers. apply powers_some. Qed.

(** the solutions do not depend on the requested output points *)
Definition output_independent : Prop := forall ts ti tf ws gs x0 dx0 te, fst (osc ts ti tf ws gs x0 dx0 te) = fst (osc ts ti tf ws gs x0 dx0 None).

Lemma mode_same b N vs drop fb fe y0 ne k p : output_independent -> solve_mode_dense osc med b N vs drop fb fe y0 ne k = Ok p ->
  solve_mode plain med b vs drop fb fe y0 k = Ok (dp_p p).
Proof.
  intros OI E. unfold solve_mode_dense in E. unfold solve_mode.
  destruct (window _ _ _ _ _) as [[i j]|]; [|discriminate]. cbn [bind fst snd] in *.
  destruct (if String.eqb (ob_indep b) "t" then Ok true else if String.eqb (ob_indep b) "_N" then Ok false else Raise NotImplementedError) as [time|]; [|discriminate]. cbn [bind] in *.
  destruct (mode_grids time b N ne i j) as [g|]; [|discriminate]. cbn [bind] in E.
  destruct (at_index (ob_x b) i) as [ti|]; [|discriminate]. cbn [bind] in *. destruct (at_index (ob_x b) j) as [tf|]; [|discriminate]. cbn [bind] in *.
  destruct (at_index (ob_s b) i) as [s0|]; [|discriminate]. cbn [bind] in *.
  destruct (at_index y0 (2 * 0)) as [a|]; [|discriminate]. destruct (at_index y0 (2 * 0 + 1)) as [a'|]; [|discriminate].
  destruct (at_index y0 (2 * 1)) as [c|]; [|discriminate]. destruct (at_index y0 (2 * 1 + 1)) as [c'|]; [|discriminate]. cbn [bind] in *.
  match type of E with bind ?x _ = _ => destruct x as [Ps|] eqn:EPs; [cbn [bind] in E|discriminate] end.
  match type of E with bind ?x _ = _ => destruct x as [Pt|] eqn:EPt; [cbn [bind] in E|discriminate] end. injection E as <-. cbn [dp_p].
  apply mode_powers_dense_fst in EPs. apply mode_powers_dense_fst in EPt. assert (OI' : forall ts ti tf ws gs x0 dx0 te, fst (osc ts ti tf ws gs x0 dx0 te) = plain ts ti tf ws gs x0 dx0) by (intros; apply OI).
  rewrite !OI' in EPs, EPt. rewrite EPs. cbn [bind]. rewrite EPt. reflexivity.
Qed.
Lemma mode_off b N vs drop fb fe y0 ne k : (ne <= 0)%Z ->
  solve_mode_dense osc med b N vs drop fb fe y0 ne k = (do q <- solve_mode plain med b vs drop fb fe y0 k; Ok (mkdpert q (mkgrids None None) [] [])).
Proof.
  intros HN. unfold solve_mode_dense, solve_mode. destruct (window _ _ _ _ _) as [[i j]|]; [|reflexivity]. cbn [bind fst snd] in *.
  destruct (if String.eqb (ob_indep b) "t" then Ok true else if String.eqb (ob_indep b) "_N" then Ok false else Raise NotImplementedError) as [time|]; [|reflexivity]. cbn [bind] in *.
  unfold mode_grids. replace (0 <? ne)%Z with false by (symmetry; apply Z.ltb_ge, HN). cbn [bind g_x].
  destruct (at_index (ob_x b) i) as [ti|]; [|reflexivity]. cbn [bind] in *. destruct (at_index (ob_x b) j) as [tf|]; [|reflexivity]. cbn [bind] in *.
  destruct (at_index (ob_s b) i) as [s0|]; [|reflexivity]. cbn [bind] in *.
  destruct (at_index y0 (2 * 0)) as [a|]; [|reflexivity]. destruct (at_index y0 (2 * 0 + 1)) as [a'|]; [|reflexivity].
  destruct (at_index y0 (2 * 1)) as [c|]; [|reflexivity]. destruct (at_index y0 (2 * 1 + 1)) as [c'|]; [|reflexivity]. cbn [bind] in *.
  rewrite !mode_powers_dense_none. unfold plain.
  destruct (mode_powers _ _ _ _ _ _) as [Ps|]; [|reflexivity]. cbn [bind]. destruct (mode_powers _ _ _ _ _ _) as [Pt|]; reflexivity.
Qed.
(** the plain result contained in a result with dense output *)
Definition forget (r : dret) : ret := match r with DPPS Q => RetPPS Q | DMode p => RetMode (option_map dp_p p) end.
Lemma loop_same b N vs drop fb fe y0 ne : output_independent -> forall ks i S p r,
  k_loop_dense (solve_mode_dense osc med b N vs drop fb fe y0 ne) vs i ks S p = Ok r ->
  k_loop (solve_mode plain med b vs drop fb fe y0) vs i ks S (option_map dp_p p) = Ok (fst r, option_map dp_p (snd r)).
Proof.
  intros OI. induction ks as [|k ks IH]; intros i S p r E; cbn [k_loop k_loop_dense] in *; [injection E as <-; reflexivity|].
  destruct (solve_mode_dense osc med b N vs drop fb fe y0 ne k) as [q|] eqn:EQ; [|discriminate]. cbn [bind] in E. rewrite (mode_same _ _ _ _ _ _ _ _ _ _ OI EQ). cbn [bind].
  destruct (store i (dp_p q) S vs) as [S'|]; [|discriminate]. cbn [bind] in *. exact (IH _ _ _ _ E).
Qed.
(** C95: asking for output points changes neither the spectrum nor the end values of a mode *)
Theorem C95_same_spectrum : forall b N k vacuum drop fb fe y0 ne tol r,
  output_independent -> solve_oscode_dense osc med b N k vacuum drop fb fe y0 ne tol = Ok r ->
  solve_oscode plain med b k vacuum drop fb fe y0 tol = Ok (forget r).
Proof.
  intros b N k vacuum drop fb fe y0 ne tol r OI E. unfold solve_oscode_dense in E. unfold solve_oscode. destruct tol; [discriminate|].
  destruct (init_pps _ _ _) as [S|]; [|discriminate]. cbn [bind] in *.
  match type of E with bind ?x _ = _ => destruct x as [q|] eqn:EL; [cbn [bind] in E|discriminate] end.
  pose proof (loop_same _ _ _ _ _ _ _ _ OI _ _ _ _ _ EL) as L. cbn [option_map] in L. rewrite L. cbn [bind fst snd]. destruct k; injection E as <-; reflexivity.
Qed.
(** C95: num_eval = 0 (the default): no output points and no P_..._eval attributes, everything else as without dense output *)
Lemma loop_off b N vs drop fb fe y0 ne : (ne <= 0)%Z -> forall ks i S p, 
  (forall q, p = Some q -> dp_grids q = mkgrids None None /\ dp_Ps q = [] /\ dp_Pt q = []) ->
  match k_loop_dense (solve_mode_dense osc med b N vs drop fb fe y0 ne) vs i ks S p with
  | Ok r => k_loop (solve_mode plain med b vs drop fb fe y0) vs i ks S (option_map dp_p p) = Ok (fst r, option_map dp_p (snd r)) /\
      (forall q, snd r = Some q -> dp_grids q = mkgrids None None /\ dp_Ps q = [] /\ dp_Pt q = [])
  | Raise e => k_loop (solve_mode plain med b vs drop fb fe y0) vs i ks S (option_map dp_p p) = Raise e
  end.
Proof.
  intros HN. induction ks as [|k ks IH]; intros i S p HP; cbn [k_loop k_loop_dense]; [split; [reflexivity|exact HP]|].
  rewrite (mode_off _ _ _ _ _ _ _ _ _ HN). destruct (solve_mode plain med b vs drop fb fe y0 k) as [q|]; [|reflexivity]. cbn [bind dp_p].
  destruct (store i q S vs) as [S'|]; [|reflexivity]. cbn [bind]. apply (IH _ _ (Some (mkdpert q (mkgrids None None) [] []))). intros q' [= <-]. auto.
Qed.
Theorem C95_off : forall b N k vacuum drop fb fe y0 ne tol, (ne <= 0)%Z ->
  match solve_oscode_dense osc med b N k vacuum drop fb fe y0 ne tol with
  | Ok r => solve_oscode plain med b k vacuum drop fb fe y0 tol = Ok (forget r) /\
      (forall p, r = DMode (Some p) -> g_x (dp_grids p) = None /\ g_N (dp_grids p) = None /\ dp_Ps p = [] /\ dp_Pt p = [])
  | Raise e => solve_oscode plain med b k vacuum drop fb fe y0 tol = Raise e
  end.
Proof.
  intros b N k vacuum drop fb fe y0 ne tol HN. unfold solve_oscode_dense, solve_oscode. destruct tol; [reflexivity|].
  destruct (init_pps _ _ _) as [S|]; [|reflexivity]. cbn [bind].
  match goal with |- context [k_loop_dense (solve_mode_dense osc med b N ?vs drop fb fe ?y ne) _ _ ?ks ?S0 _] =>
    pose proof (loop_off b N vs drop fb fe y ne HN ks 0 S0 None ltac:(discriminate)) as L end. cbn [option_map] in L.
  match type of L with match ?x with _ => _ end => destruct x as [r|e] end; [|rewrite L; reflexivity]. destruct L as [L Q]. rewrite L. cbn [bind fst snd].
  destruct k; split; try reflexivity; intros p; try discriminate. intros [= E]. destruct (Q p E) as (-> & -> & ->). auto.
Qed.

(** ** the power at every output point *)
(** pyoscode evaluates the solution with initial data (x0, dx0) at the output points te:
    x0 U(te) + dx0 V(te), with U and V the solutions with data (1, 0) and (0, 1) *)
Definition integrates_dense (xs : list R) (xi xj : R) (f2 g : list R) (U V : fl -> C) : Prop :=
  forall ws, map (fun w => Cmult w w) ws = map RtoC f2 -> forall (x0 dx0 : R) te,
  exists r s e, osc xs xi xj ws g x0 dx0 (Some te) = ((RtoC x0 :: r, RtoC dx0 :: s), Some e) /\
    map fst e = map (fun t => (U t * RtoC x0 + V t * RtoC dx0)%C) te.
Lemma powers_eval norm ic g r1 r2 vs d e : mode_powers_dense med norm ic (Some g) r1 r2 vs = Ok (d, e) ->
  forall vac, In vac vs -> exists v ab e1 e2, ic vac = Ok v /\ vac_coeffs v (fst r1) (fst r2) = Ok ab /\ snd r1 = Some e1 /\ snd r2 = Some e2 /\
    dget vac e = Ok (combine_eval norm ab (map fst e1) (map fst e2)).
Proof.
  unfold mode_powers_dense. destruct r1 as [p1 o1], r2 as [p2 o2]. cbn [fst snd].
  assert (G : forall vs d0 e0 d e, fold_left (fun acc vac => do d <- acc; do v <- ic vac;
    do P <- combine_solutions med norm v (fst p1) (snd p1) (fst p2) (snd p2);
    do ab <- vac_coeffs v p1 p2;
      match o1, o2 with
      | Some e1, Some e2 => Ok (dset vac P (fst d), dset vac (combine_eval norm ab (map fst e1) (map fst e2)) (snd d))
      | _, _ => Raise AttributeError end) vs (Ok (d0, e0)) = Ok (d, e) ->
    (forall vac, In vac vs -> exists v ab e1 e2, ic vac = Ok v /\ vac_coeffs v p1 p2 = Ok ab /\ o1 = Some e1 /\ o2 = Some e2 /\
      dget vac e = Ok (combine_eval norm ab (map fst e1) (map fst e2))) /\ (forall vac, ~ In vac vs -> dget vac e = dget vac e0)).
  { clear vs d e. induction vs as [|vac vs IH]; intros d0 e0 d e E; cbn [fold_left] in E; [injection E as _ <-; split; [intros v []|reflexivity]|].
    cbn [bind fst snd] in E. destruct (ic vac) as [v|] eqn:EV; [cbn [bind] in E|cbn [bind] in E; rewrite fold_raise in E; discriminate].
    match type of E with context [combine_solutions ?a ?b ?c ?d ?e ?f ?g] => destruct (combine_solutions a b c d e f g) as [P|] end; [cbn [bind] in E|cbn [bind] in E; rewrite fold_raise in E; discriminate].
    destruct (vac_coeffs v _ _) as [ab|] eqn:EA; [cbn [bind] in E|cbn [bind] in E; rewrite fold_raise in E; discriminate].
    destruct o1 as [e1|]; [|cbv iota in E; rewrite fold_raise in E; discriminate]. destruct o2 as [e2|]; [|cbv iota in E; rewrite fold_raise in E; discriminate].
    destruct (IH _ _ _ _ E) as [A B]. split.
    - intros w [<-|Hw]; [|exact (A w Hw)]. destruct (in_dec string_dec vac vs) as [I|I]; [exact (A vac I)|].
      exists v, ab, e1, e2. split; [exact EV|]. split; [exact EA|]. split; [reflexivity|]. split; [reflexivity|]. rewrite (B vac I), dget_dset, String.eqb_refl. reflexivity.
    - intros w Hw. rewrite (B w) by (intros X; apply Hw; right; exact X). rewrite dget_dset.
      destruct (String.eqb w vac) eqn:E3; [|reflexivity]. apply String.eqb_eq in E3. subst. destruct Hw. left. reflexivity. }
  intros E. exact (proj1 (G vs [] [] d e E)).
Qed.
Lemma eval_combination norm (u du x1 d1 x2 d2 : C) (U V : fl -> C) te ab : (x1 * d2 - d1 * x2 <> 0)%C -> ab = coefficients_a_b u du x1 d1 x2 d2 ->
  combine_eval norm ab (map (fun t => (U t * x1 + V t * d1)%C) te) (map (fun t => (U t * x2 + V t * d2)%C) te)
  = map (fun t => Cmod (U t * u + V t * du)%C ^ 2 * norm) te.
Proof.
  intros W ->. pose proof (C89_dense_output norm u du x1 d1 x2 d2 (map (fun t => (U t, V t)) te) x1 d1 x2 d2 W eq_refl eq_refl) as H.
  unfold run in H. rewrite !map_map in H. exact H.
Qed.

(** C95: for every requested vacuum, P_s_<vac>_eval and P_t_<vac>_eval are the power of the solution with the
    vacuum's initial data at every output point *)
Theorem C95_eval_power :
  forall b N k vs drop fb fe x1 d1 x2 d2 ne p time i j xi xj s0 xs ss Us Vs Ut Vt vac us ut g,
  solve_oscode_dense osc med b N (KScalar k) (Some vs) drop fb fe (Some [x1; d1; x2; d2]) ne false = Ok (DMode (Some p)) ->
  window (ob_logaH b) (map s_N (ob_s b)) k fb fe = Ok (i, j) -> (i <= j)%nat ->
  ob_indep b = (if time : bool then "t" else "_N") -> g_x (dp_grids p) = Some g ->
  nth_error (ob_x b) i = Some xi -> nth_error (ob_x b) j = Some xj -> nth_error (ob_s b) i = Some s0 ->
  (j < List.length (ob_s b))%nat -> is_range xs (ob_x b) i j -> is_range ss (ob_s b) i j ->
  x1 * d2 - d1 * x2 <> 0 ->
  integrates_dense xs xi xj (map (freq2 time false (ob_K b) k (ob_U b)) ss) (map (damp time false (ob_K b) k (ob_U b)) ss) Us Vs ->
  integrates_dense xs xi xj (map (freq2 time true (ob_K b) k (ob_U b)) ss) (map (damp time true (ob_K b) k (ob_U b)) ss) Ut Vt ->
  In vac vs -> vacuum_state time false (ob_K b) k (ob_U b) vac s0 us -> vacuum_state time true (ob_K b) k (ob_U b) vac s0 ut ->
  dget vac (dp_Ps p) = Ok (map (fun t => Cmod (Us t * fst us + Vs t * snd us)%C ^ 2 * (k^3 / (2 * PI^2))) g) /\
  dget vac (dp_Pt p) = Ok (map (fun t => Cmod (Ut t * fst ut + Vt t * snd ut)%C ^ 2 * (k^3 / PI^2)) g).
Proof.
  intros b N k vs drop fb fe x1 d1 x2 d2 ne p time i j xi xj s0 xs ss Us Vs Ut Vt vac us ut g
    E W IJ EI EG Exi Exj Es0 Lj Rx Rs WR IS IT Hin HVs HVt.
  apply dense_mode in E. pose proof (mode_dense_grids _ _ _ _ _ _ _ _ _ _ time i j E W EI) as MG. rename E into EM.
  unfold solve_mode_dense in EM. rewrite W in EM. cbn [bind fst snd] in EM. rewrite EI in EM.
  assert (ET : (if String.eqb (if time then "t" else "_N") "t" then Ok true
     else if String.eqb (if time then "t" else "_N") "_N" then Ok false else Raise NotImplementedError) = Ok time) by (destruct time; reflexivity).
  rewrite ET in EM. cbn [bind] in EM. rewrite MG in EM. cbn [bind] in EM.
  assert (Lx : (j < List.length (ob_x b))%nat) by (apply nth_error_Some; congruence).
  rewrite <- (range_eq _ _ _ _ _ Rx (slice_range i j (ob_x b) IJ Lx)) in EM.
  rewrite <- (range_eq _ _ _ _ _ Rs (slice_range i j (ob_s b) IJ Lj)) in EM.
  unfold at_index in EM at 1 2 3. rewrite Exi in EM. cbn [bind] in EM. rewrite Exj in EM. cbn [bind] in EM. rewrite Es0 in EM. cbn [bind] in EM.
  cbn [at_index nth_error Nat.mul Nat.add bind] in EM. rewrite EG in EM.
  unfold mode_coeffs in EM. cbn [fst snd] in EM.
  match type of EM with context [mode_powers_dense ?a ?b ?c ?d ?f ?g ?h] => destruct (mode_powers_dense a b c d f g h) as [[Ps Es]|e] eqn:EPs end; cbn [bind] in EM; [|discriminate].
  match type of EM with context [mode_powers_dense ?a ?b ?c ?d ?f ?g ?h] => destruct (mode_powers_dense a b c d f g h) as [[Pt Et]|e] eqn:EPt end; cbn [bind] in EM; [|discriminate].
  injection EM as EM. assert (EMs : dp_Ps p = Es) by (rewrite <- EM; reflexivity). assert (EMt : dp_Pt p = Et) by (rewrite <- EM; reflexivity). rewrite EMs, EMt. clear EM EMs EMt.
  destruct (powers_eval _ _ _ _ _ _ _ _ EPs vac Hin) as (v & ab & e1 & e2 & QV & QA & Q1 & Q2 & QG).
  destruct (powers_eval _ _ _ _ _ _ _ _ EPt vac Hin) as (v' & ab' & e1' & e2' & QV' & QA' & Q1' & Q2' & QG').
  assert (WC : (RtoC x1 * RtoC d2 - RtoC d1 * RtoC x2 <> 0)%C).
  { intros X. apply (f_equal fst) in X. cbn in X. apply WR. lra. }
  assert (FS : forall tensor : bool, (if time then if tensor then Tt_frequency2 (ob_K b) k else Ts_frequency2 (ob_K b) k (ob_U b)
            else if tensor then Nt_frequency2 (ob_K b) k else Ns_frequency2 (ob_K b) k (ob_U b)) = freq2 time tensor (ob_K b) k (ob_U b)) by (intros; destruct time, tensor; reflexivity).
  assert (DS : forall tensor : bool, (if time then if tensor then Tt_damping else Ts_damping (ob_K b) k (ob_U b)
            else if tensor then Nt_damping (ob_K b) else Ns_damping (ob_K b) k (ob_U b)) = damp time tensor (ob_K b) k (ob_U b)) by (intros; destruct time, tensor; reflexivity).
  assert (VI : forall tensor u, vacuum_state time tensor (ob_K b) k (ob_U b) vac s0 u -> vacuum_ic time tensor (ob_K b) k (ob_U b) vac s0 = Ok u).
  { intros tensor u. unfold vacuum_state, vacuum_ic. destruct time, tensor; intros [[-> ->]|[[-> ->]|[-> ->]]]; reflexivity. }
  rewrite (VI false us HVs) in QV. rewrite (VI true ut HVt) in QV'. injection QV as <-. injection QV' as <-.
  specialize (FS false) as FSs. specialize (FS true) as FSt. specialize (DS false) as DSs. specialize (DS true) as DSt. cbv iota in FSs, FSt, DSs, DSt.
  rewrite FSs, DSs in QA, Q1, Q2. rewrite FSt, DSt in QA', Q1', Q2'.
  destruct (IS _ (ms_frequency_sq _) x1 d1 g) as (r1 & t1 & f1 & O1 & F1). destruct (IS _ (ms_frequency_sq _) x2 d2 g) as (r2 & t2 & f2 & O2 & F2).
  destruct (IT _ (ms_frequency_sq _) x1 d1 g) as (r3 & t3 & f3 & O3 & F3). destruct (IT _ (ms_frequency_sq _) x2 d2 g) as (r4 & t4 & f4 & O4 & F4).
  rewrite O1, O2 in QA. rewrite O3, O4 in QA'. rewrite O1 in Q1. rewrite O2 in Q2. rewrite O3 in Q1'. rewrite O4 in Q2'.
  cbn [fst snd] in *. injection Q1 as <-. injection Q2 as <-. injection Q1' as <-. injection Q2' as <-.
  unfold vac_coeffs in QA, QA'. cbn [fst snd] in QA, QA'. injection QA as QA. injection QA' as QA'. rewrite QG, QG', F1, F2, F3, F4.
  rewrite (eval_combination _ (fst us) (snd us) _ _ _ _ Us Vs g ab WC (eq_sym QA)).
  rewrite (eval_combination _ (fst ut) (snd ut) _ _ _ _ Ut Vt g ab' WC (eq_sym QA')). split; [reflexivity|]. f_equal. apply map_ext. intros t. f_equal.
  unfold tensor_pps_norm. field. apply PI_neq0.
Qed.
End Props.

(** ** the hypotheses are met *)
(** an integrator for constant solutions *)
Definition osc_dense (ts : list R) (ti tf : R) (ws : list C) (gs : list R) (x0 dx0 : R) (te : option (list fl)) : (list C * list C) * option (list (C * C)) :=
  (([RtoC x0], [RtoC dx0]), option_map (map (fun _ => (RtoC x0, RtoC dx0))) te).
Lemma osc_dense_independent : output_independent osc_dense. Proof. intros ? ? ? ? ? ? ? ?. reflexivity. Qed.
Theorem C95_nonvacuous : exists p,
  solve_oscode_dense osc_dense med_hd bg_ex (Some [60; 65; 71]) (KScalar (1/2)) (Some ["k"]) true 0 100 (Some [1; 0; 0; 1]) 3 false = Ok (DMode (Some p)) /\
  g_x (dp_grids p) = Some (map Fin [0; 11/2; 11]) /\ g_N (dp_grids p) = Some (map Fin [60; 131/2; 71]) /\ output_independent osc_dense /\
  (forall f g, integrates_dense osc_dense [0; 5; 11] 0 11 f g (fun _ => RtoC 1) (fun _ => RtoC 0)).
Proof.
  rewrite dense_call. cbn [ob_logaH_star bg_ex]. unfold init_pps. cbn [ob_logaH_star bg_ex]. unfold solve_mode_dense. cbn [ob_logaH ob_s bg_ex map s_N]. rewrite bg_ex_window.
  cbn [bind fst snd ob_indep bg_ex String.eqb Ascii.eqb Bool.eqb]. unfold mode_grids. cbn [Z.ltb Z.compare at_index nth_error ob_x ob_s Nat.mul Nat.add bind map s_N bg_ex].
  unfold osc_dense at 1 2 3 4. unfold mode_powers_dense. cbn [fold_left bind vacuum_ic String.eqb Ascii.eqb Bool.eqb fst snd combine_solutions vac_coeffs dset g_x option_map].
  cbn [ob_K bg_ex]. assert (SU : (rltb (1/2) 1 && (if Req_EM_T 1 1 then true else false) && true)%bool = true).
  { unfold rltb. destruct (Rlt_dec (1/2) 1) as [_|X]; [|lra]. destruct (Req_EM_T 1 1) as [_|X]; [reflexivity|lra]. }
  rewrite SU. eexists. split.
  - unfold store. cbn [fold_left bind dp_p pP_s pP_t ps_s ps_t dget find fst snd String.eqb Ascii.eqb Bool.eqb dset].
    reflexivity.
  - cbn [dp_grids g_x g_N]. rewrite !linspace_fin. unfold rgrid. change (Z.to_nat 3) with 3%nat. cbn [seq map Nat.sub INR].
    split; [|split; [|split; [exact osc_dense_independent|]]].
    + apply (f_equal (fun l => Some l)). repeat (apply f_equal2; [apply f_equal; field|]). reflexivity.
    + apply (f_equal (fun l => Some l)). repeat (apply f_equal2; [apply f_equal; field|]). reflexivity.
    + intros f g ws _ x0 dx0 te. do 3 eexists. split; [reflexivity|]. rewrite map_map. apply map_ext. intros t. cbn [fst]. ring.
Qed.
